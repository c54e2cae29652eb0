(** Specification for C83: how a shell splits a simple command line into words. *)
From Verif Require Import Py.

(** Characters that separate words; and those that mean something else than
    themselves if they are not quoted (POSIX 2.2), in double quotes, too. *)
Definition blank (c : char) : bool := (c =? 32) || (c =? 9) || (c =? 10).
Definition special (c : char) : bool := existsb (fun d => c =? d) (TX "|&;<>()$`\*?[#~{}!" ++ [0; 13]).
Definition special_in_quotes (c : char) : bool := existsb (fun d => c =? d) (TX "$`\!").

Inductive sh_state := Between | Word (w : text) | Single (w : text) | Double (w : text).
(** [None]: there is more to it than words. *)
Fixpoint sh_words (s : text) (st : sh_state) : option (list text) :=
  match s with
  | [] => match st with Between => Some [] | Word w => Some [w] | _ => None end
  | c :: s' =>
      let in_word w :=
        if c =? 39 then sh_words s' (Single w) else if c =? 34 then sh_words s' (Double w)
        else if special c then None else sh_words s' (Word (w ++ [c])) in
      match st with
      | Between => if blank c then sh_words s' Between else in_word []
      | Word w => if blank c then option_map (cons w) (sh_words s' Between) else in_word w
      | Single w => if c =? 39 then sh_words s' (Word w) else sh_words s' (Single (w ++ [c]))
      | Double w => if c =? 34 then sh_words s' (Word w) else if special_in_quotes c then None else sh_words s' (Double (w ++ [c]))
      end
  end.
(** The words of a line.  (That a first word like a=b is an assignment, and that
    some words are keywords or aliases, is left out.) *)
Definition shell_words (s : text) : option (list text) := sh_words s Between.
