(** The HTTP front end: range requests, keys in URLs, batch uploads, and the
    client side of each.

    Models blobd/src/endpoint/{read_object,batch_create_objects}.rs,
    blobd/src/endpoint/mod.rs:122-126, blobd-client-rs/src/lib.rs and
    blobd-client-js/src/main.ts.  Library code is modelled from its
    documentation: the [Range] header of crate headers 0.3, [u64::from_str],
    [to_string], percent-encoding, and the path part of the WHATWG URL parser
    (crate url, JavaScript [URL]).  Strings are lists of character codes. *)
From stdpp Require Import base numbers list option.
From Verif Require Import Util Bytes PageIOModel TokenModel.
Open Scope N_scope.

(** * Numbers in headers *)
(** [u64::to_string], JavaScript [Number.toString] of a safe integer. *)
Fixpoint dec_aux (fuel : nat) (n : N) : list N :=
  match fuel with
  | O => [48 + n]
  | S fuel => if n <? 10 then [48 + n] else dec_aux fuel (n / 10) ++ [48 + n mod 10]
  end.
Definition dec (n : N) : list N := dec_aux (N.size_nat n) n.
(** [u64::from_str]: an optional plus sign, then digits; [None] on anything
    else or on overflow. *)
Definition digit (c : N) : option N := if (48 <=? c) && (c <=? 57) then Some (c - 48) else None.
Fixpoint digits (acc : N) (s : list N) : option N :=
  match s with [] => Some acc | c :: s => d ← digit c; digits (acc * 10 + d) s end.
Definition parse_u64 (s : list N) : option N :=
  let s := match s with 43 :: t => t | _ => s end in
  match s with
  | [] => None
  | _ => v ← digits 0 s; if v <? 2 ^ 64 then Some v else None
  end.

(** * The [Range] header (crate headers 0.3, typed header [Range]) *)
Inductive bound := Included (v : N) | Excluded (v : N) | Unbounded.
(** [parse_bound]. *)
Definition parse_bound (s : list N) : option bound :=
  match s with [] => Some Unbounded | _ => Included <$> parse_u64 s end.
(** [str::trim] on the characters a header may contain. *)
Fixpoint trim_start (s : list N) : list N :=
  match s with c :: t => if (c =? 32) || (c =? 9) then trim_start t else s | [] => [] end.
Definition trim (s : list N) : list N := reverse (trim_start (reverse (trim_start s))).
(** [splitn(2, '-')]: at the first hyphen; [None] if there is none. *)
Fixpoint split_hyphen (s : list N) : option (list N * list N) :=
  match s with
  | [] => None
  | c :: s => if c =? 45 then Some ([], s) else '(a, b) ← split_hyphen s; Some (c :: a, b)
  end.
Definition parse_spec (s : list N) : option (bound * bound) :=
  '(a, b) ← split_hyphen (trim s);
  x ← parse_bound a; y ← parse_bound b; Some (x, y).
(** "bytes=". *)
Definition bytes_eq : list N := [98;121;116;101;115;61].
(** [TypedHeader<Range>] and [Range::iter]: a header that does not start with
    "bytes=" is no range header; specs that do not parse are dropped. *)
Definition range_specs (h : list N) : option (list (bound * bound)) :=
  if bool_decide (take 6 h = bytes_eq) then Some (omap parse_spec (split_commas (drop 6 h))) else None.

(** * read_object.rs:32-107 *)
(** An answer with a body: status, Content-Length, Content-Range, the body. *)
Inductive answer :=
  | Status (code : N)
  | Body (code : N) (content_length content_range : list N) (body : list N).

(** read_object.rs:53-65, on the specs of the header; [None] is the 416. *)
Definition range_start (b : bound) : option N :=
  match b with Included v => Some v | Excluded _ => None | Unbounded => Some 0 end.
Definition range_end (b : bound) : option N :=
  match b with Included v => Some (u64_add v 1) | Excluded v => Some v | Unbounded => None end.

(** "bytes {start}-{end - 1}/{size}", read_object.rs:92-95. *)
Definition content_range (start fin size : N) : list N :=
  [98;121;116;101;115;32] ++ dec start ++ [45] ++ dec (fin - 1) ++ [47] ++ dec size.

(** The endpoint after authorisation.  [content] is the committed object of
    the key, if any.  The store's read is the check of libblobd-direct
    read_object.rs:86-91 ([read_check Direct]) and the stream it returns,
    which is the requested bytes of the object (C22). *)
Definition endpoint_read (content : option (list N)) (range : option (list N)) : answer :=
  let ranges := default [] (h ← range; range_specs h) in
  match ranges with
  | _ :: _ :: _ => Status 416
  | _ =>
      let range := default (Unbounded, Unbounded) (head ranges) in
      match range_start (fst range) with
      | None => Status 416
      | Some start =>
          match content with
          | None => Status 404
          | Some data =>
              let size := N.of_nat (length data) in
              let fin := default size (range_end (snd range)) in
              match read_check Direct size start fin with
              | Some _ => Status 416
              | None =>
                  Body (match ranges with [] => 200 | _ => 206 end)
                    (dec (fin - start)) (content_range start fin size)
                    (take (N.to_nat (fin - start)) (drop (N.to_nat start) data))
              end
          end
      end
  end.

(** * Keys in URLs *)
Definition hex (v : N) : N := if v <? 10 then 48 + v else 55 + v.
Definition unhex (c : N) : option N :=
  if (48 <=? c) && (c <=? 57) then Some (c - 48)
  else if (65 <=? c) && (c <=? 70) then Some (c - 55)
  else if (97 <=? c) && (c <=? 102) then Some (c - 87)
  else None.
Definition pct (b : N) : list N := [37; hex (b / 16); hex (b mod 16)].
(** [percent_encode] with a set of bytes that must be encoded. *)
Definition percent_encode (must : N -> bool) (s : list N) : list N :=
  concat (map (fun b => if must b then pct b else [b]) s).
(** [percent_decode]: a percent sign not followed by two hexadecimal digits is
    kept. *)
Fixpoint percent_decode (s : list N) : list N :=
  match s with
  | [] => []
  | c :: t =>
      if c =? 37 then
        match t with
        | h :: l :: t' =>
            match unhex h, unhex l with
            | Some a, Some b => a * 16 + b :: percent_decode t'
            | _, _ => 37 :: percent_decode t
            end
        | _ => 37 :: percent_decode t
        end
      else c :: percent_decode t
  end.

(** [str::split('/')]. *)
Fixpoint split_on (sep : N -> bool) (acc s : list N) : list (list N) :=
  match s with
  | [] => [reverse acc]
  | c :: s => if sep c then reverse acc :: split_on sep [] s else split_on sep (c :: acc) s
  end.
Definition split_slash : list N -> list (list N) := split_on (fun c => c =? 47) [].

(** percent-encoding [CONTROLS]; bytes that are not ASCII are always encoded. *)
Definition rust_must (b : N) : bool := (b <? 32) || (127 <=? b).
(** [encodeURIComponent] keeps A-Z a-z 0-9 - _ . ! ~ * ' ( ). *)
Definition js_must (b : N) : bool :=
  negb (((48 <=? b) && (b <=? 57)) || ((65 <=? b) && (b <=? 90)) || ((97 <=? b) && (b <=? 122))
        || existsb (N.eqb b) [45; 95; 46; 33; 126; 42; 39; 40; 41]).
(** blobd-client-rs/src/lib.rs:78-85 and blobd-client-js/src/main.ts:39-45: the
    text after the endpoint's authority. *)
Definition build_path (must : N -> bool) (key : list N) : list N :=
  concat (map (fun p => 47 :: percent_encode must p) (split_slash key)).

(** The WHATWG URL parser on "http://host" followed by [s]: the path of the
    parsed URL.  Trailing spaces and control characters are stripped, tabs and
    newlines removed; the path ends at '?' or '#'; '\' separates like '/'; dot
    segments are resolved; the path percent-encode set is encoded. *)
Definition is_c0_space (c : N) : bool := c <=? 32.
Fixpoint drop_while (f : N -> bool) (s : list N) : list N :=
  match s with c :: t => if f c then drop_while f t else s | [] => [] end.
Fixpoint take_while (f : N -> bool) (s : list N) : list N :=
  match s with c :: t => if f c then c :: take_while f t else [] | [] => [] end.
Definition strip_end (s : list N) : list N := reverse (drop_while is_c0_space (reverse s)).
Definition path_must (b : N) : bool :=
  (b <? 32) || (127 <=? b) || existsb (N.eqb b) [32; 34; 35; 60; 62; 63; 96; 123; 125].
(** Lower-case of an ASCII letter, for "%2E" = "%2e". *)
Definition lower (c : N) : N := if (65 <=? c) && (c <=? 90) then c + 32 else c.
Definition is_single_dot (s : list N) : bool :=
  bool_decide (s = [46]) || bool_decide (map lower s = [37;50;101]).
Definition is_double_dot (s : list N) : bool :=
  bool_decide (s = [46;46]) || bool_decide (map lower s = [46;37;50;101])
  || bool_decide (map lower s = [37;50;101;46]) || bool_decide (map lower s = [37;50;101;37;50;101]).
(** [stack] holds the segments so far, last first. *)
Fixpoint path_segments (stack : list (list N)) (segs : list (list N)) : list (list N) :=
  match segs with
  | [] => reverse stack
  | s :: rest =>
      let last := match rest with [] => true | _ => false end in
      if is_double_dot s then
        let stack := tail stack in path_segments (if last then [] :: stack else stack) rest
      else if is_single_dot s then path_segments (if last then [] :: stack else stack) rest
      else path_segments (percent_encode path_must s :: stack) rest
  end.
Definition url_path (s : list N) : list N :=
  let s := List.filter (fun c => negb ((c =? 9) || (c =? 10) || (c =? 13))) (strip_end s) in
  let s := take_while (fun c => negb ((c =? 63) || (c =? 35))) s in
  (* the first character is the separator that starts the path *)
  concat (map (cons 47) (path_segments [] (split_on (fun c => (c =? 47) || (c =? 92)) [] (tail s)))).

(** endpoint/mod.rs:124-126 [parse_key]. *)
Definition parse_key (path : list N) : list N := percent_decode (tail path).
(** The key the server sees when a client is asked for [key]. *)
Definition rust_key_seen (key : list N) : list N := parse_key (url_path (build_path rust_must key)).
Definition js_key_seen (key : list N) : list N := parse_key (url_path (build_path js_must key)).

(** * Ranges sent by the clients *)
(** blobd-client-rs/src/lib.rs:290-299. *)
Definition rust_range (start fin : option N) : option (list N) :=
  s ← start; Some (bytes_eq ++ dec s ++ [45] ++ match fin with Some e => dec e | None => [] end).
(** blobd-client-js/src/main.ts:178-181; [end - 1] of 0 prints as "-1". *)
Definition js_range (start fin : option N) : option (list N) :=
  s ← start; Some (bytes_eq ++ dec s ++ [45] ++
    match fin with Some e => if e =? 0 then [45; 49] else dec (e - 1) | None => [] end).

(** * Batch uploads *)
(** The request body: network chunks, possibly cut short.  After the chunks
    every read fails ([UnexpectedEof] or the transport error). *)
(** [AsyncReadExt::read_exact] of [n] bytes from the chunks: the bytes and what
    is left, or [None]. *)
Fixpoint read_exact (n : nat) (chunks : list (list N)) : option (list N * list (list N)) :=
  match n with
  | O => Some ([], chunks)
  | S _ =>
      match chunks with
      | [] => None
      | c :: rest =>
          if (n <=? length c)%nat then Some (take n c, drop n c :: rest)
          else '(bs, rest') ← read_exact (n - length c) rest; Some (c ++ bs, rest')
      end
  end.

(** What the endpoint asks of the store.  Writes and commits go to the upload
    token of the create just before them; [key] is the key of that create. *)
Inductive bop :=
  | BCreate (key : list N) (size : N)
  | BWrite (key : list N) (offset : N) (data : list N)
  | BCommit (key : list N).

(** batch_create_objects.rs:74-97: the parts of one object, offsets from
    [offset] in steps of the large page.  [ok] says whether the store's next
    operation succeeds, given the operations so far (most recent first).
    [None]: some read or write failed.  The operations are those the store was
    asked for, also the failing one. *)
Fixpoint batch_parts (ok : list bop -> bop -> bool) (lsize : N) (fuel : nat) (key : list N) (size offset : N)
  (body : list (list N)) (log : list bop) : list bop * option (list (list N)) :=
  if size <=? offset then (log, Some body) else
  match fuel with
  | O => (log, None)
  | S fuel =>
      match read_exact (N.to_nat (N.min lsize (size - offset))) body with
      | None => (log, None)
      | Some (chunk, body) =>
          let op := BWrite key offset chunk in
          if ok log op then batch_parts ok lsize fuel key size (offset + lsize) body (op :: log)
          else (op :: log, None)
      end
  end.
(** batch_create_objects.rs:42-111: the loop; the answer is the operations
    asked of the store, most recent first, and the count in the header. *)
Fixpoint batch_loop (ok : list bop -> bop -> bool) (lsize : N) (fuel : nat)
  (body : list (list N)) (log : list bop) (created : N) : list bop * N :=
  match fuel with
  | O => (log, created)
  | S fuel =>
      match read_exact 2 body with
      | None => (log, created)
      | Some (key_len_raw, body) =>
      match read_exact (N.to_nat (be_val key_len_raw)) body with
      | None => (log, created)
      | Some (key, body) =>
      match read_exact 5 body with
      | None => (log, created)
      | Some (size_raw, body) =>
          let size := be_val size_raw in
          let op := BCreate key size in
          if negb (ok log op) then (op :: log, created) else
          match batch_parts ok lsize (N.to_nat size) key size 0 body (op :: log) with
          | (log, None) => (log, created)
          | (log, Some body) =>
              let op := BCommit key in
              if ok log op then batch_loop ok lsize fuel body (op :: log) (created + 1)
              else (op :: log, created)
          end
      end end end
  end.
(** Every object takes at least seven bytes of the body, so this is enough. *)
Definition endpoint_batch (ok : list bop -> bop -> bool) (lsize : N) (body : list (list N)) : list bop * N :=
  batch_loop ok lsize (S (length (concat body))) body [] 0.

(** blobd-client-rs/src/lib.rs:147-166 and main.ts:233-272: the body of one
    entry; [create_u16_be] and [encodeU16BE] keep the low 16 bits (the Rust
    client panics before that: [try_into().unwrap()]). *)
Definition batch_entry (key : list N) (size : N) (data : list N) : list N :=
  be_bytes 2 (N.of_nat (length key)) ++ key ++ be_bytes 5 size ++ data.
