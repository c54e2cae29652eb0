(** What matcher expressions mean. *)
From Verif Require Import Py Ast Eval.

(** [a.b.c] *)
Inductive dotted : pexpr -> text -> Prop :=
  | D_name id : dotted (EName id) id
  | D_attr v s a : dotted v s -> dotted (EAttribute v a) (s ++ TX "." ++ a).
Definition starless (args : list pexpr) (keywords : list (option text * pexpr)) : Prop :=
  (forall x, ~ In (EStarred x) args) /\ (forall x, ~ In (None, x) keywords).

(** The language: literals, the known constants, and calls of the known callables. *)
Section Language.
  Variable callables constants : list text.
  Inductive permitted : pexpr -> Prop :=
    | P_const c : permitted (EConst c)
    | P_minus k c : k <> KBool -> permitted (EUnary (TX "USub") (EConst (CNum k c)))
    | P_tuple l : Forall permitted l -> permitted (ETuple l)
    | P_list l : Forall permitted l -> permitted (EList l)
    | P_set l : Forall permitted l -> permitted (ESet l)
    | P_dict l : Forall (fun kv => exists k, fst kv = Some k /\ permitted k /\ permitted (snd kv)) l -> permitted (EDict l)
    | P_call f n args kws : dotted f n -> In n callables -> starless args kws ->
        Forall permitted args -> Forall (fun kw => permitted (snd kw)) kws -> permitted (ECall f args kws)
    | P_name e n : dotted e n -> In n constants -> permitted e.
End Language.

(** Names in call position. *)
Inductive calls_name : pexpr -> text -> Prop :=
  | CN_here f args kws n : dotted f n -> calls_name (ECall f args kws) n
  | CN_arg f args kws x n : In x args -> calls_name x n -> calls_name (ECall f args kws) n
  | CN_kw f args kws k x n : In (k, x) kws -> calls_name x n -> calls_name (ECall f args kws) n
  | CN_tuple l x n : In x l -> calls_name x n -> calls_name (ETuple l) n
  | CN_list l x n : In x l -> calls_name x n -> calls_name (EList l) n
  | CN_set l x n : In x l -> calls_name x n -> calls_name (ESet l) n
  | CN_key l k x n : In (Some k, x) l -> calls_name k n -> calls_name (EDict l) n
  | CN_value l k x n : In (k, x) l -> calls_name x n -> calls_name (EDict l) n.

(** The value of an expression, with the calls that are made: from [h] to [h']. *)
Section Meaning.
  Variable obj : Type.
  Variable of_const : const -> obj.
  Variable negate : obj -> obj.
  Variable mk_tuple mk_list mk_set : list obj -> obj.
  Variable mk_dict : list (obj * obj) -> obj.
  Variable hashable : obj -> bool.
  Variable callables : dict (callable obj).
  Variable constants : dict obj.

  Inductive means : list (event obj) -> pexpr -> list (event obj) -> obj -> Prop :=
    | M_const h c : means h (EConst c) h (of_const c)
    | M_minus h k c : k <> KBool -> means h (EUnary (TX "USub") (EConst (CNum k c))) h (negate (of_const (CNum k c)))
    | M_tuple h l h' os : means_all h l h' os -> means h (ETuple l) h' (mk_tuple os)
    | M_list h l h' os : means_all h l h' os -> means h (EList l) h' (mk_list os)
    | M_set h l h' os : means_all h l h' os -> Forall (fun o => hashable o = true) os -> means h (ESet l) h' (mk_set os)
    | M_dict h l h' os : means_pairs h l h' os -> Forall (fun ab => hashable (fst ab) = true) os -> means h (EDict l) h' (mk_dict os)
    | M_call h f n c args kws h1 os h2 ks o :
        dotted f n -> dget callables n = Some c -> starless args kws ->
        means_all h args h1 os -> means_kws h1 kws h2 ks ->
        c h2 os (fold_left (fun d kv => dset d (fst kv) (snd kv)) ks []) = Ok o ->
        means h (ECall f args kws) (h2 ++ [Event n os (fold_left (fun d kv => dset d (fst kv) (snd kv)) ks [])]) o
    | M_name h e n o : dotted e n -> dget constants n = Some o -> means h e h o
  with means_all : list (event obj) -> list pexpr -> list (event obj) -> list obj -> Prop :=
    | MA_nil h : means_all h [] h []
    | MA_cons h x h1 o l h2 os : means h x h1 o -> means_all h1 l h2 os -> means_all h (x :: l) h2 (o :: os)
  with means_kws : list (event obj) -> list (option text * pexpr) -> list (event obj) -> dict obj -> Prop :=
    | MK_nil h : means_kws h [] h []
    | MK_cons h k x h1 o l h2 os : means h x h1 o -> means_kws h1 l h2 os -> means_kws h ((Some k, x) :: l) h2 ((k, o) :: os)
  with means_pairs : list (event obj) -> list (option pexpr * pexpr) -> list (event obj) -> list (obj * obj) -> Prop :=
    | MP_nil h : means_pairs h [] h []
    | MP_cons h k x h1 a h2 b l h3 os : means h k h1 a -> means h1 x h2 b -> means_pairs h2 l h3 os ->
        means_pairs h ((Some k, x) :: l) h3 ((a, b) :: os).
End Meaning.

(** Where an exception [x] can come from: not this language; something
    unhashable; or a callable raised it. *)
Definition raised_by {obj} (callables : dict (callable obj)) (x : exn) : Prop :=
  exists n c h os ks, dget callables n = Some c /\ c h os ks = Err x.
