(** * Model: the interactive shells (C113)

    Models /repo/src/cli.rs (C) and the client loop of /repo/src/main.rs:108-239 (M).  Text is ASCII: Unicode white space and
    lower-casing of other letters are left out.  Printing, the history and the prompt are left out.  What the database answers
    (the id of a new transaction, whether a commit succeeds) is given with the line; a statement's own failure is only printed
    (C 182-187, 196-200; M 215-234), so it is not modelled.  display_tables never fails (db_instance.rs:685-723). *)
From Coq Require Import NArith Ascii String.
From stdpp Require Import list.
From Verif Require Import ShSpec.
Local Open Scope N_scope.

(** str::trim, str::trim_end_matches(';'), str::ends_with(';'), str::to_lowercase. *)
Fixpoint drop_while (f : N -> bool) (l : text) : text :=
  match l with c :: t => if f c then drop_while f t else l | [] => [] end.
Definition trim_start (l : text) : text := drop_while space l.
Definition trim_end (f : N -> bool) (l : text) : text := rev (drop_while f (rev l)).
Definition trim (l : text) : text := trim_end space (trim_start l).
Definition ends_semi (l : text) : bool := match last l with Some c => c =? 59 | None => false end.
Definition lower (l : text) : text := map (fun c => if (65 <=? c) && (c <=? 90) then c + 32 else c) l.

(** What the line editor gives (C 39-65): a line without its end, Ctrl-C, the end of the input, or an error. *)
Inductive event := Line (s : text) (id : N) (ok : bool) | Interrupt | Eof | Fault.

(** C 12-16 and the buffer of C 36. *)
Record shell := Sh { buffer : text; current : option N }.

(** C 107-157: begin, commit and rollback. *)
Definition begin_ (cur : option N) (id : N) : option N * list action :=
  match cur with Some _ => (cur, []) | None => (Some id, [Begin id]) end.
Definition commit_ (cur : option N) (ok : bool) : option N * list action :=
  match cur with
  | Some i => (None, if ok then [Commit i true] else [Commit i false; Abort i])
  | None => (None, [])
  end.
Definition rollback_ (cur : option N) : option N * list action :=
  match cur with Some i => (None, [Abort i]) | None => (None, []) end.

(** C 68-101: one command; the flag says whether the shell goes on. *)
Definition command (buf : text) (cur : option N) (id : N) (ok : bool) : option N * list action * bool :=
  let c := trim buf in
  match c with
  | [] => (cur, [], true)
  | _ =>
      let c := trim_end (fun x => x =? 59) c in
      let l := lower c in
      if decide (l = txt "exit") then (rollback_ cur, false)
      else if decide (l = txt "quit") then (rollback_ cur, false)
      else if decide (l = txt "help") then (cur, [Help], true)
      else if decide (l = txt "begin") then (begin_ cur id, true)
      else if decide (l = txt "commit") then (commit_ cur ok, true)
      else if decide (l = txt "rollback") then (rollback_ cur, true)
      else if decide (l = txt "show tables") then (cur, [Tables], true)
      else (cur, [Run cur c], true)
  end.

(** C 38-104. *)
Definition step (s : shell) (e : event) : shell * list action * bool :=
  match e with
  | Line l id ok =>
      let buf := buffer s ++ l in
      if ends_semi (trim l) then
        let '(cur, acts, go) := command buf (current s) id ok in (Sh [] cur, acts, go)
      else (Sh buf (current s), [], true)
  | Interrupt => (Sh [] (current s), [], true)
  | Eof | Fault => (Sh (buffer s) (current s), [], false)
  end.
Fixpoint session (s : shell) (es : list event) : shell * list action :=
  match es with
  | [] => (s, [])
  | e :: es =>
      let '(s, a, go) := step s e in
      if go : bool then let '(s, b) := session s es in (s, a ++ b) else (s, a)
  end.
Definition start : shell := Sh [] None.

(** M 133-161: the client sends the query with its semicolon; any error of the line editor ends it. *)
Inductive csent := Query (q : text).
Definition cstep (buf : text) (e : event) : text * list csent * bool :=
  match e with
  | Line l _ _ =>
      let buf := buf ++ l in
      if ends_semi (trim l) then
        let q := trim buf in
        if decide (q = txt "exit;") then ([], [], false) else ([], [Query q], true)
      else (buf, [], true)
  | _ => (buf, [], false)
  end.
Fixpoint client (buf : text) (es : list event) : list csent :=
  match es with
  | [] => []
  | e :: es => let '(buf, a, go) := cstep buf e in if go : bool then a ++ client buf es else a
  end.
