(** "blobc upload-dir": the command that uploads the files of a directory in one batch.

    Models blobc/src/upload_dir.rs and the body that blobd-client-rs/src/lib.rs:125-166
    [batch_create_objects] sends.  Left out: progress bars; which of the errors an
    entry is skipped for (they are all printed). *)
From stdpp Require Import base numbers option list.
From Verif Require Import Util Bytes TokenModel HttpModel ServerModel ServerSpec.
Open Scope N_scope.

(** What opening a path gives: a file with these bytes; or a directory, which can be
    opened for reading on Linux but not read (EISDIR).  Paths are byte strings,
    and the file system is any function of them. *)
Inductive node := NFile (data : list N) | NDir.
Definition filesystem := list N -> option node.

(** std [Path::join]: an absolute path replaces the base. *)
Definition path_join (base p : list N) : list N :=
  match p with
  | 47 :: _ => p
  | _ => match list.last base with None => p | Some 47 => base ++ p | Some _ => base ++ 47 :: p end
  end.

(** upload_dir.rs:22-47 [process_dir_ent] for an item of the walk: [None] is an item
    that is skipped (an error of the walk, no metadata, or a path that is not
    Unicode), [Some (path, size)] an entry with the length in its metadata.
    The answer is the key, the size and the source of the data. *)
Definition process_dir_ent (fs : filesystem) (base prefix : list N) (ent : option (list N * N)) : option (list N * N * node) :=
  '(path, size) ← ent; file ← fs (path_join base path); Some (prefix ++ path, size, file).
(** upload_dir.rs:65-81: the entries that are sent, in the order of the walk. *)
Definition upload_entries (fs : filesystem) (base prefix : list N) (walk : list (option (list N * N))) : list (list N * N * node) :=
  omap (process_dir_ent fs base prefix) walk.
(** lib.rs:138-156: the body of the request, up to its end or to the first error.  A
    data stream that fails makes the request fail; so does a key whose length does
    not fit into 16 bits (the client panics). *)
Fixpoint upload_bytes (es : list (list N * N * node)) : list N :=
  match es with
  | [] => []
  | (key, size, file) :: es =>
      if 2 ^ 16 <=? N.of_nat (length key) then [] else
      match file with
      | NFile data => batch_entry key size data ++ upload_bytes es
      | NDir => batch_entry key size []
      end
  end.

(** A walk of the directory [root], as walkdir's [WalkDir::new(root)] makes it: it begins
    with the directory itself; the other paths are below it. *)
Definition walk_of (root : list N) (walk : list (option (list N * N))) : Prop :=
  exists size rest, walk = Some (root, size) :: rest /\
    forall path size', Some (path, size') ∈ rest -> exists below, path = path_join root below /\ below <> [] /\ head below <> Some 47.

(** A request of [upload_dir] to the server: a batch whose body is the above, as far as
    it reached the server before the client gave up. *)
Definition upload_dir_rq (fs : filesystem) (root prefix : list N) (rq : request) : Prop :=
  exists walk size body rest, walk_of root walk /\ rq_method rq = HPost size body /\
    upload_bytes (upload_entries fs root prefix walk) = concat body ++ rest.
