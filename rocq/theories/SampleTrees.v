(** A small parsed file for the non-vacuity examples: the module
    [f(a, b)], with one statement. *)
From Verif Require Import Py Ast Template Matcher.

Definition tk (i a b : Z) (s : text) : token := Tok 1 s a b i.
Definition nd (id : Z) (ty : text) (f l : token) (fs : list (text * value)) : value :=
  VNode (NI id ty (Some 1) (Some f) (Some l)) fs.
Definition load (id : Z) : value := VNode (NI id (TX "Load") None None None) [].
Definition ident (id : Z) (s : text) : value := VConst id (CStr s).
Definition name (id : Z) (t : token) (sid : Z) : value :=
  nd id (TX "Name") t t [(TX "id", ident sid (tk_string t)); (TX "ctx", load (id + 2))].

Definition tok_f := tk 0 0 1 (TX "f").
Definition tok_lp := tk 1 1 2 (TX "(").
Definition tok_a := tk 2 2 3 (TX "a").
Definition tok_c := tk 3 3 4 (TX ",").
Definition tok_b := tk 4 5 6 (TX "b").
Definition tok_rp := tk 5 6 7 (TX ")").
Definition s_f := name 10 tok_f 11.
Definition s_a := name 20 tok_a 21.
Definition s_b := name 30 tok_b 31.
Definition s_args := VList 40 [s_a; s_b].
Definition s_call :=
  nd 50 (TX "Call") tok_f tok_rp [(TX "func", s_f); (TX "args", s_args); (TX "keywords", VList 51 [])].
Definition s_expr := nd 60 (TX "Expr") tok_f tok_rp [(TX "value", s_call)].
Definition s_module :=
  nd 70 (TX "Module") tok_f tok_rp [(TX "body", VList 71 [s_expr]); (TX "type_ignores", VList 72 [])].
Definition s_tokens := [tok_f; tok_lp; tok_a; tok_c; tok_b; tok_rp].
Definition s_file : parsed_file :=
  PF (TX "f(a, b)") (TX "x.py") [] (Some (PyInfo s_tokens s_module)).
Definition s_env : env :=
  Env s_file s_module s_tokens [] (fun c => 1000 + c) (fun c => 2000 + c) (fun _ _ => []).

(** [Name(id=..)] and [Bind] with the defaults. *)
Definition m_name (s : text) : matcher :=
  MNode (TX "Name") [(TX "id", MEquals (VConst 0 (CStr s))); (TX "ctx", MAnything)].
Definition m_bind (x : text) (m : matcher) : matcher := MBind x m None None.
