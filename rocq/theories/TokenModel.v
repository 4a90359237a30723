(** Access tokens, upload tokens and write receipts.

    Models blobd-token/src/lib.rs, blobd/src/endpoint/mod.rs:30-107, the
    authorisation part of the write, create and commit endpoints, and
    blobd-client-js/src/tokens.ts.  A byte string is a list of numbers below
    256 and a text string is the list of its ASCII codes.

    [blake3::keyed_hash(&secret, _)] is a parameter [mac]: the theorems say
    which property of it they use.  [BASE64URL_NOPAD] (crate data-encoding) and
    the compact MessagePack encoding of crate rmp-serde 1.1 are library code;
    their documented behaviour on the types used here is modelled in full. *)
From stdpp Require Import base numbers list option.
From Verif Require Import Util Bytes.
Open Scope N_scope.

(** * data-encoding [BASE64URL_NOPAD]: alphabet A-Z a-z 0-9 - _, no padding,
    non-zero trailing bits rejected. *)
Definition b64_char (v : N) : N :=
  if v <? 26 then 65 + v
  else if v <? 52 then 71 + v
  else if v <? 62 then v - 4
  else if v =? 62 then 45 else 95.
Definition b64_val (c : N) : option N :=
  if (65 <=? c) && (c <=? 90) then Some (c - 65)
  else if (97 <=? c) && (c <=? 122) then Some (c - 71)
  else if (48 <=? c) && (c <=? 57) then Some (c + 4)
  else if c =? 45 then Some 62
  else if c =? 95 then Some 63
  else None.
Fixpoint b64_encode (l : list N) : list N :=
  match l with
  | a :: b :: c :: t =>
      b64_char (a / 4) :: b64_char (a mod 4 * 16 + b / 16)
      :: b64_char (b mod 16 * 4 + c / 64) :: b64_char (c mod 64) :: b64_encode t
  | [a; b] => [b64_char (a / 4); b64_char (a mod 4 * 16 + b / 16); b64_char (b mod 16 * 4)]
  | [a] => [b64_char (a / 4); b64_char (a mod 4 * 16)]
  | [] => []
  end.
Fixpoint b64_decode (s : list N) : option (list N) :=
  match s with
  | w :: x :: y :: z :: t =>
      a ← b64_val w; b ← b64_val x; c ← b64_val y; d ← b64_val z; r ← b64_decode t;
      Some (a * 4 + b / 16 :: b mod 16 * 16 + c / 4 :: c mod 4 * 64 + d :: r)
  | [w; x; y] =>
      a ← b64_val w; b ← b64_val x; c ← b64_val y;
      if c mod 4 =? 0 then Some [a * 4 + b / 16; b mod 16 * 16 + c / 4] else None
  | [w; x] =>
      a ← b64_val w; b ← b64_val x;
      if b mod 16 =? 0 then Some [a * 4 + b / 16] else None
  | [_] => None
  | [] => Some []
  end.

(** * rmp-serde, compact configuration (structs are arrays of their fields). *)
(** [write_uint]: the shortest form. *)
Definition mp_uint (v : N) : list N :=
  if v <? 128 then [v]
  else if v <? 2 ^ 8 then 204 :: be_bytes 1 v
  else if v <? 2 ^ 16 then 205 :: be_bytes 2 v
  else if v <? 2 ^ 32 then 206 :: be_bytes 4 v
  else 207 :: be_bytes 8 v.
(** [write_array_len]. *)
Definition mp_array (n : N) : list N :=
  if n <? 16 then [144 + n]
  else if n <? 2 ^ 16 then 220 :: be_bytes 2 n
  else 221 :: be_bytes 4 n.
(** A string shorter than 32 bytes. *)
Definition mp_str (s : list N) : list N := 160 + N.of_nat (length s) :: s.
(** [Vec<u8>]: an array of integers. *)
Definition mp_vec_u8 (l : list N) : list N := mp_array (N.of_nat (length l)) ++ concat (map mp_uint l).
(** [u128]: a 16-byte binary, big endian. *)
Definition mp_u128 (v : N) : list N := 196 :: 16 :: be_bytes 16 v.

(** * blobd-token/src/lib.rs *)
(** lib.rs:46-59 [AuthTokenAction]. *)
Inductive action :=
  | BatchCreateObjects
  | CommitObject (key : list N)
  | CreateObject (key : list N) (size : N)
  | DeleteObject (key : list N)
  | InspectObject (key : list N)
  | ReadObject (key : list N)
  | WriteObject (key : list N).

(** The variant names, as ASCII. *)
Definition action_name (a : action) : list N :=
  match a with
  | BatchCreateObjects => [66;97;116;99;104;67;114;101;97;116;101;79;98;106;101;99;116;115]
  | CommitObject _ => [67;111;109;109;105;116;79;98;106;101;99;116]
  | CreateObject _ _ => [67;114;101;97;116;101;79;98;106;101;99;116]
  | DeleteObject _ => [68;101;108;101;116;101;79;98;106;101;99;116]
  | InspectObject _ => [73;110;115;112;101;99;116;79;98;106;101;99;116]
  | ReadObject _ => [82;101;97;100;79;98;106;101;99;116]
  | WriteObject _ => [87;114;105;116;101;79;98;106;101;99;116]
  end.
(** The fields of the variant: an array of them, in declaration order. *)
Definition action_fields (a : action) : list N :=
  match a with
  | BatchCreateObjects => mp_array 0
  | CreateObject key size => mp_array 2 ++ mp_vec_u8 key ++ mp_uint size
  | CommitObject key | DeleteObject key | InspectObject key | ReadObject key | WriteObject key =>
      mp_array 1 ++ mp_vec_u8 key
  end.
(** A struct variant: a map of one entry, from the name to the fields (129 is
    the header of a map of one entry). *)
Definition mp_action (a : action) : list N := 129 :: mp_str (action_name a) ++ action_fields a.
(** lib.rs:61-66 [AuthToken], serialised. *)
Definition auth_msg (a : action) (expires : N) : list N := mp_array 2 ++ mp_action a ++ mp_uint expires.

Section Mac.
  (** [blake3::keyed_hash(&secret, data).as_bytes()]. *)
  Variable mac : list N -> list N.

  (** lib.rs:69-76 [AuthToken::new]. *)
  Definition auth_token_new (a : action) (expires : N) : list N :=
    b64_encode (be_bytes 8 expires ++ mac (auth_msg a expires)).

  (** lib.rs:32-43 [BlobdTokens::verify]. *)
  Definition mac_verify (token msg : list N) : bool :=
    if negb (N.of_nat (length token) =? 32) then false
    else bool_decide (mac msg = token).

  (** lib.rs:78-102 [AuthToken::verify] at the time [now]. *)
  Definition auth_token_verify (now : N) (token : list N) (expected : action) : bool :=
    match b64_decode token with
    | None => false
    | Some raw =>
        if negb (N.of_nat (length raw) =? 8 + 32) then false else
        let expires := be_val (take 8 raw) in
        if negb (mac_verify (drop 8 raw) (auth_msg expected expires)) then false else
        if expires <=? now then false else true
    end.

  (** endpoint/mod.rs:36-38 [HttpCtx::verify_auth]. *)
  Definition verify_auth (authentication_is_enabled : bool) (now : N) (t : list N) (expected : action) : bool :=
    negb authentication_is_enabled || auth_token_verify now t expected.

  (** libblobd-direct/src/incomplete_token.rs:8-13 [IncompleteToken]. *)
  Record itoken := Itoken { it_object : N; it_partition : N }.
  (** [(IncompleteToken, u64)] serialised: endpoint/mod.rs:46-49 and 77-80. *)
  Definition pair_msg (it : itoken) (v : N) : list N :=
    mp_array 2 ++ (mp_array 2 ++ mp_u128 (it_object it) ++ mp_uint (it_partition it)) ++ mp_uint v.

  (** [rmp_serde::from_slice] at type [(IncompleteToken, u64)]: any of the
      integer forms is accepted, and what follows the value is ignored.
      Simplification: the array and binary headers other than the ones the
      server itself writes are refused. *)
  Definition parse_uint (l : list N) : option (N * list N) :=
    let sized (n : nat) (t : list N) :=
      if (length t <? n)%nat then None else Some (be_val (take n t), drop n t) in
    match l with
    | [] => None
    | b :: t =>
        if b <? 128 then Some (b, t)
        else if b =? 204 then sized 1%nat t
        else if b =? 205 then sized 2%nat t
        else if b =? 206 then sized 4%nat t
        else if b =? 207 then sized 8%nat t
        else None
    end.
  Definition parse_pair (l : list N) : option (itoken * N) :=
    match l with
    | 146 :: 146 :: 196 :: 16 :: t =>
        if (length t <? 16)%nat then None else
        p ← parse_uint (drop 16 t);
        let '(partition, t') := p in
        q ← parse_uint t';
        Some (Itoken (be_val (take 16 t)) partition, fst q)
    | _ => None
    end.

  (** endpoint/mod.rs:41-54 [generate_upload_token]. *)
  Definition upload_token (it : itoken) (size : N) : list N :=
    b64_encode (mac (pair_msg it size) ++ pair_msg it size).

  (** endpoint/mod.rs:57-74 [parse_and_verify_upload_token]. *)
  Definition parse_upload_token (tok : list N) : option (itoken * N) :=
    raw ← b64_decode tok;
    if N.of_nat (length raw) <=? 32 then None else
    if bool_decide (take 32 raw = mac (drop 32 raw)) then parse_pair (drop 32 raw) else None.

  (** endpoint/mod.rs:76-88 [generate_write_receipt]. *)
  Definition write_receipt (it : itoken) (part : N) : list N := b64_encode (mac (pair_msg it part)).

  (** endpoint/mod.rs:30-32 [div_ceil] is [Util.div_ceil]; mod.rs:90-107
      [verify_write_receipts]: the loop over the parts. *)
  Fixpoint verify_parts (receipts : list (list N)) (it : itoken) (part : N) (count : nat) : bool :=
    match count with
    | O => true
    | S count =>
        match receipts !! N.to_nat part with
        | None => false
        | Some r =>
            match b64_decode r with
            | None => false
            | Some m =>
                (N.of_nat (length m) =? 32) && bool_decide (m = mac (pair_msg it part))
                && verify_parts receipts it (part + 1) count
            end
        end
    end.
  Definition verify_write_receipts (lpage_size : N) (receipts : list (list N)) (it : itoken) (size : N) : bool :=
    verify_parts receipts it 0 (N.to_nat (div_ceil size lpage_size)).

  (** [str::split(",")]. *)
  Fixpoint split_commas_aux (acc s : list N) : list (list N) :=
    match s with
    | [] => [reverse acc]
    | c :: s => if c =? 44 then reverse acc :: split_commas_aux [] s else split_commas_aux (c :: acc) s
    end.
  Definition split_commas : list N -> list (list N) := split_commas_aux [].

  (** commit_object.rs:29-42: what the endpoint checks before it commits;
      the answer is the object it commits. *)
  Inductive commit_answer := CommitUnauthorised | CommitBadToken | CommitBadReceipts | CommitProceeds (it : itoken).
  Definition endpoint_commit (auth : bool) (lpage_size now : N) (key t tok receipts : list N) : commit_answer :=
    if negb (verify_auth auth now t (CommitObject key)) then CommitUnauthorised else
    match parse_upload_token tok with
    | None => CommitBadToken
    | Some (it, size) =>
        if verify_write_receipts lpage_size (split_commas receipts) it size
        then CommitProceeds it else CommitBadReceipts
    end.

  (** write_object.rs:33-71: what the endpoint checks before it writes. *)
  Inductive write_answer := WriteUnauthorised | WriteBadToken | WriteProceeds (it : itoken).
  Definition endpoint_write (auth : bool) (now : N) (key t tok : list N) : write_answer :=
    if negb (verify_auth auth now t (WriteObject key)) then WriteUnauthorised else
    match parse_upload_token tok with
    | None => WriteBadToken
    | Some (it, _) => WriteProceeds it
    end.
  (** write_object.rs:57-67: the receipt sent back if the write succeeded. *)
  Definition write_response (lpage_size : N) (it : itoken) (offset : N) : list N :=
    write_receipt it (offset / lpage_size).
End Mac.

(** * blobd-client-js/src/tokens.ts:33-76
    [msgpackEncode({ action, expires })]: JavaScript objects become maps whose
    keys are the property names.  "action", "expires", "type", "key", "size";
    a [Uint8Array] is a binary. *)
Definition mp_bin (l : list N) : list N :=
  (if N.of_nat (length l) <? 2 ^ 8 then 196 :: be_bytes 1 (N.of_nat (length l))
   else if N.of_nat (length l) <? 2 ^ 16 then 197 :: be_bytes 2 (N.of_nat (length l))
   else 198 :: be_bytes 4 (N.of_nat (length l))) ++ l.
Definition js_action (a : action) : list N :=
  let typ := mp_str [116;121;112;101] ++ mp_str (action_name a) in
  let key k := mp_str [107;101;121] ++ mp_bin k in
  match a with
  | BatchCreateObjects => 129 :: typ
  | CreateObject k size => 131 :: typ ++ key k ++ mp_str [115;105;122;101] ++ mp_uint size
  | CommitObject k | DeleteObject k | InspectObject k | ReadObject k | WriteObject k => 130 :: typ ++ key k
  end.
Definition js_auth_msg (a : action) (expires : N) : list N :=
  130 :: mp_str [97;99;116;105;111;110] ++ js_action a ++ mp_str [101;120;112;105;114;101;115] ++ mp_uint expires.
(** tokens.ts:42-62 [AuthToken.new]. *)
Definition js_auth_token_new (mac : list N -> list N) (a : action) (expires : N) : list N :=
  b64_encode (be_bytes 8 expires ++ mac (js_auth_msg a expires)).
