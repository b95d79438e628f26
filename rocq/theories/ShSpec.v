(** * Specification: the interactive shells (C113) *)
From Coq Require Import NArith Ascii String.
From stdpp Require Import list.
Local Open Scope N_scope.

(** Text is a list of ASCII codes. *)
Definition text := list N.
Definition txt (s : string) : text := map (fun c => N_of_ascii c) (list_ascii_of_string s).
Definition space (c : N) : bool := (c =? 32) || ((9 <=? c) && (c <=? 13)).
Definition semi : N := 59.
Definition quote : N := 39.
Definition same_letter (a b : N) : Prop := a = b \/ (65 <= a <= 90 /\ b = a + 32).
(** [s] is the lower-case word [w] in some case. *)
Definition spells (s w : text) : Prop := Forall2 same_letter s w.

(** The words of a text: the pieces between white space. *)
Fixpoint words_from (cur : text) (l : text) : list text :=
  match l with
  | [] => match cur with [] => [] | _ => [rev cur] end
  | c :: l => if space c then match cur with [] => words_from [] l | _ => rev cur :: words_from [] l end
              else words_from (c :: cur) l
  end.
Definition words (l : text) : list text := words_from [] l.
(** What was typed: the lines, one after the other. *)
Fixpoint typed (lines : list text) : text :=
  match lines with [] => [] | [l] => l | l :: ls => l ++ 10 :: typed ls end.

(** A statement as it should be typed on one line: it begins and ends with something, and does not end in a semicolon. *)
Definition plain (s : text) : Prop :=
  (exists c, head s = Some c /\ space c = false) /\ (exists c, last s = Some c /\ space c = false /\ c <> semi).
Definition blank (s : text) : Prop := Forall (fun c => space c = true) s.
Definition in_quotes (s : text) : Prop := Nat.odd (length (filter (fun c => c = quote) s)) = true.

(** What a shell asks of the database. A statement runs in the transaction given, or on its own. *)
Inductive action :=
| Begin (i : N) | Commit (i : N) (ok : bool) | Abort (i : N) | Run (t : option N) (sql : text) | Tables | Help.

(** The actions of a careful user of transactions: one at a time, each ended once, every statement inside the one that is
    open, and nothing but an abort after a commit that failed. *)
Inductive follows : option N -> list action -> option N -> Prop :=
| f_end c : follows c [] c
| f_begin i t e : follows (Some i) t e -> follows None (Begin i :: t) e
| f_commit i t e : follows None t e -> follows (Some i) (Commit i true :: t) e
| f_failed i t e : follows None t e -> follows (Some i) (Commit i false :: Abort i :: t) e
| f_abort i t e : follows None t e -> follows (Some i) (Abort i :: t) e
| f_run c s t e : follows c t e -> follows c (Run c s :: t) e
| f_tables c t e : follows c t e -> follows c (Tables :: t) e
| f_help c t e : follows c t e -> follows c (Help :: t) e.

(** The words the shell of the database itself understands. *)
Definition shell_words : list text := map txt ["exit"; "quit"; "help"; "begin"; "commit"; "rollback"; "show tables"]%string.
Definition for_shell (s : text) : Prop := exists w, In w shell_words /\ spells s w.
(** A line that finishes a statement: its last visible character is a semicolon. *)
Definition finishes (l : text) : Prop := exists x b, l = x ++ semi :: b /\ blank b.
(** Lines between which there is white space in any case. *)
Fixpoint apart (ls : list text) : Prop :=
  match ls with
  | a :: ((b :: _) as t) =>
      ((exists c, last a = Some c /\ space c = true) \/ (exists c, head b = Some c /\ space c = true)) /\ apart t
  | _ => True
  end.
