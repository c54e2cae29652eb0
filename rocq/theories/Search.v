(** Model of refex/search.py: searchers, fixed-point iteration, rewriting
    searchers.  (Pragma ranges are at the end; the Python-specific removal of
    statements is in Removal.v.) *)
From Verif Require Import Py Subst Fmt Ast Template.

(** A searcher (search.py:305-349) is its four methods.  [find_iter_parsed] is
    a generator in the code; the model gives the whole list, or the first
    exception (results yielded before an exception are not represented). *)
Record searcher := Searcher {
  s_parse : text -> text -> res parsed_file;          (* parse(data, path) *)
  s_find : parsed_file -> res (list substitution);    (* find_iter_parsed *)
  s_check : text -> res unit;                         (* check_is_included *)
  s_approx : option text                              (* approximate_regex *)
}.

(** search.py:308-311, 329-331: the defaults of [AbstractSearcher]. *)
Definition default_parse (data path : text) : res parsed_file := Ok (PF data path [] None).
Definition default_check (path : text) : res unit := Ok tt.

(** *** Merging *)

(** search.py:260-302 [_compile_substitutions]. *)
Definition opt_text_eqb := opt_eqb text_eqb.
Definition all_same {A} (eqb : A -> A -> bool) (l : list A) : bool :=
  match l with [] => false | x :: r => forallb (eqb x) r end.
Definition truthy (o : option text) : bool := match o with Some (_ :: _) => true | _ => false end.
Definition merged_header : text := TX "There are a few findings here:" ++ [NL; NL].
Definition merged_url : text := TX "https://refex.readthedocs.io/en/latest/guide/fixers/merged.html".
Definition str_or_none (o : option text) : text := match o with Some t => t | None => TX "None" end.
Definition with_url (s : substitution) : text :=
  (match message s with Some (c :: m) => c :: m | _ => TX "(no message)" end)
  ++ [NL] ++ TX "(" ++ str_or_none (url s) ++ TX ")".
Definition fixedpoint : label := TX "fixedpoint".
Definition merged_category (sig : bool) : text :=
  TX "refex.merged." ++ (if sig then TX "significant" else TX "not-significant").

Definition compile_substitutions (subs : list substitution) (start fin : Z) (contents : text)
  : res substitution :=
  let sig_subs := filter significant subs in
  let significant := match sig_subs with [] => false | _ => true end in
  let chosen := match sig_subs with [] => subs | _ => sig_subs end in
  let '(header, url, messages) :=
    if all_same opt_text_eqb (map url chosen) then
      let messages := flat_map (fun s => match message s with Some (c :: m) => [c :: m] | _ => [] end)
                               chosen in
      let url := match chosen with s :: _ => url s | [] => None end in
      if all_same text_eqb messages then ([], url, firstn 1 messages)
      else (merged_header, url, messages)
    else (merged_header, Some merged_url, map with_url chosen) in
  let message := match messages with [] => None | _ => Some (header ++ join [NL; NL] messages) end in
  make_sub (Sub [(fixedpoint, (start, fin))] fixedpoint (Some [(fixedpoint, contents)])
                message url significant (Some (merged_category significant)) None).

(** *** Fixed point *)

Section FixedPoint.
  (** [_matcher.parse_ast(text, path)]: raises only [ParseError] by contract. *)
  Variable parse_ast : text -> text -> res parsed_file.

  (** search.py:218-246: the loop of [_fixed_point], from iteration
      [max_iterations - n] on.  The test [i == max_iterations] is never true. *)
  Fixpoint fp_loop (n : nat) (s : searcher) (path : text) (txt : text)
           (new all : list substitution) : res (list substitution * text) :=
    match n with
    | O => Ok (all, txt)
    | S n' =>
        do rewritten <- apply_substitutions txt new;
        match parse_ast rewritten path with
        | Err ParseError => Ok (all, txt)
        | Err e => Err e
        | Ok parsed =>
            do new' <- s_find s parsed;
            match new' with
            | [] => Ok (all ++ new, rewritten)
            | _ => fp_loop n' s path rewritten new' (all ++ new)
            end
        end
    end.

  (** [None in new_substitutions] / the list without the options. *)
  Fixpoint all_some {A} (l : list (option A)) : option (list A) :=
    match l with
    | [] => Some []
    | Some x :: rest => match all_some rest with Some r => Some (x :: r) | None => None end
    | None :: _ => None
    end.

  (** search.py:190-257 [_fixed_point]. *)
  Definition fixed_point (s : searcher) (parsed : parsed_file) (initial : list substitution)
             (start fin : Z) (max_iterations : Z) : res (list substitution) :=
    if max_iterations <=? 1 then Ok initial
    else
      do rel <- mapM (fun x => relative_to_span x start fin) initial;
      match all_some rel with
      | None => Ok initial
      | Some new =>
          let txt := slice (pf_text parsed) start fin in
          do r <- fp_loop (Z.to_nat max_iterations) s (pf_path parsed) txt new [];
          let '(all, txt') := r in
          match all with
          | [] => Ok []
          | _ => if Nat.eqb (length all) (length initial) then Ok initial
                 else do m <- compile_substitutions all start fin txt'; Ok [m]
          end
      end.

  (** search.py:165-166: [itertools.groupby] by [key_span]: maximal runs. *)
  Definition key_eqb := opt_eqb span_eqb.
  Fixpoint group_by_key (l : list substitution) : list (option span * list substitution) :=
    match l with
    | [] => []
    | x :: rest =>
        match group_by_key rest with
        | (k, g) :: gs => if key_eqb (key_span x) k then (key_span x, x :: g) :: gs
                          else (key_span x, [x]) :: (k, g) :: gs
        | [] => [(key_span x, [x])]
        end
    end.

  Definition process_group (s : searcher) (parsed : parsed_file) (max_iterations : Z)
             (g : option span * list substitution) : res (list substitution) :=
    match fst g with
    | None => Ok (snd g)
    | Some (a, b) => fixed_point s parsed (snd g) a b max_iterations
    end.

  (** search.py:144-187 [find_iter]. *)
  Definition find_iter (s : searcher) (data path : text) (max_iterations : Z)
    : res (list substitution) :=
    do _ <- s_check s path;
    do parsed <- s_parse s data path;
    do subs <- s_find s parsed;
    do outs <- mapM (process_group s parsed max_iterations) (group_by_key subs);
    Ok (concat outs).

  (** search.py:917-931 [rewrite_string]. *)
  Definition rewrite_string (s : searcher) (source path : text) (max_iterations : Z) : res text :=
    do subs <- find_iter s source path max_iterations;
    apply_substitutions source subs.

  (** search.py:708-720 [BasePythonSearcher.parse]. *)
  Definition python_parse (data path : text) : res parsed_file :=
    match parse_ast data path with
    | Err ParseError => Err SkipFileError
    | r => r
    end.
End FixedPoint.

(** *** Combinators *)

(** A compiled regex as far as [search(data) is not None] goes. *)
Definition regex_test := text -> bool.

(** search.py:388-404 [AlsoRegexpSearcher]. *)
Definition also_regexp (also also_not : list regex_test) (s : searcher) : searcher :=
  Searcher
    (fun data path =>
       if negb (forallb (fun r => r data) also) || existsb (fun r => r data) also_not
       then Err SkipFileNoResultsError
       else s_parse s data path)
    (s_find s) (s_check s) (s_approx s).

(** Equality of parsed files.  [PythonParsedFile] compares by identity and
    [parse_ast] caches by (identity of the text, path); within one [parse] call
    the text and path are the same objects, so the model compares those. *)
Fixpoint dict_eqb (a b : dict text) : bool :=
  match a, b with
  | [], [] => true
  | (k, v) :: a', (k', v') :: b' => text_eqb k k' && text_eqb v v' && dict_eqb a' b'
  | _, _ => false
  end.
Definition pragma_eqb (a b : pragma) : bool :=
  text_eqb (p_tag a) (p_tag b) && dict_eqb (p_data a) (p_data b)
  && (p_start a =? p_start b) && (p_end a =? p_end b).
Fixpoint list_eqb {A} (eqb : A -> A -> bool) (a b : list A) : bool :=
  match a, b with
  | [], [] => true
  | x :: a', y :: b' => eqb x y && list_eqb eqb a' b'
  | _, _ => false
  end.
Definition parsed_eqb (a b : parsed_file) : bool :=
  text_eqb (pf_text a) (pf_text b) && text_eqb (pf_path a) (pf_path b)
  && list_eqb pragma_eqb (pf_pragmas a) (pf_pragmas b)
  && Bool.eqb (is_some (pf_py a)) (is_some (pf_py b)).

(** search.py:449-466: the loop of [CombinedSearcher.parse].  Only the two
    classes of the repository exist: [PythonParsedFile] is a subclass of
    [ParsedFile].  [None] is returned for an empty list of searchers. *)
Fixpoint combined_parse (ss : list searcher) (data path : text) (acc : option parsed_file)
  : res (option parsed_file) :=
  match ss with
  | [] => Ok acc
  | s :: rest =>
      do new <- s_parse s data path;
      let parsed := match acc with Some p => p | None => new end in
      match is_some (pf_py parsed), is_some (pf_py new) with
      | true, true | false, false =>
          if parsed_eqb parsed new then combined_parse rest data path (Some parsed)
          else Err AssertionError
      | false, true => combined_parse rest data path (Some new)
      | true, false => combined_parse rest data path (Some parsed)
      end
  end.

(** search.py:407-483 [CombinedSearcher].  With no searchers at all [parse]
    returns None and [find_iter_parsed] yields nothing; the model's [parse]
    then returns an empty file. *)
Definition combined (ss : list searcher) : searcher :=
  Searcher
    (fun data path =>
       do r <- combined_parse ss data path None;
       Ok (match r with Some p => p | None => PF [] [] [] None end))
    (fun parsed => do ls <- mapM (fun s => s_find s parsed) ss; disjoint_substitutions (concat ls))
    (fun path => do _ <- mapM (fun s => s_check s path) ss; Ok tt)
    ((fix go (l : list searcher) (acc : list text) : option text :=
        match l with
        | [] => Some (join (TX "|") (map (fun r => TX "(?:" ++ r ++ TX ")") (rev acc)))
        | s :: rest => match s_approx s with None => None | Some r => go rest (r :: acc) end
        end) ss []).

(** search.py:534-556 [FileRegexFilteredSearcher.check_is_included], mixed in
    over [s]. *)
Definition file_regex_filtered (include : regex_test) (s : searcher) : searcher :=
  Searcher (s_parse s) (s_find s)
    (fun path => do _ <- s_check s path; if include path then Ok tt else Err SkipFileError)
    (s_approx s).

(** *** Pragmas *)

Fixpoint rt_append (t : range_table) (k : text) (r : span) : range_table :=
  match t with
  | [] => [(Some k, [r])]
  | (k', v) :: rest => if opt_text_eqb k' (Some k) then (k', v ++ [r]) :: rest
                       else (k', v) :: rt_append rest k r
  end.

(** [{prefix + d.strip() for d in data[key].split(',')}]: a set. *)
Fixpoint dedup (l : list text) : list text :=
  match l with
  | [] => []
  | x :: r => if tmem x r then dedup r else x :: dedup r
  end.
Definition comma : char := 44.
Definition annotated (prefix value : text) : list text :=
  dedup (map (fun d => prefix ++ strip d) (split_char comma value)).

(** search.py:512-531 [_pragma_ranges]. *)
Definition pragma_prefix (tag : text) : option text :=
  if text_eqb tag (TX "pylint") then Some (TX "pylint.")
  else if text_eqb tag (TX "refex") then Some []
  else None.
Fixpoint pragma_ranges (ps : list pragma) (key : text) (acc : range_table) : range_table :=
  match ps with
  | [] => acc
  | p :: rest =>
      match dget (p_data p) key, pragma_prefix (p_tag p) with
      | Some v, Some prefix =>
          pragma_ranges rest key
            (fold_left (fun t c => rt_append t c (p_start p, p_end p)) (annotated prefix v) acc)
      | _, _ => pragma_ranges rest key acc
      end
  end.

(** search.py:503-508: cutting one disabled range at the enabled ones. *)
Fixpoint cut_range (start fin : Z) (enabled : list span) : span :=
  match enabled with
  | [] => (start, fin)
  | (e, _) :: rest => if (start <=? e) && (e <? fin) then cut_range start e rest
                      else cut_range start fin rest
  end.

(** search.py:486-509 [_pragma_excluded_ranges]. *)
Definition pragma_excluded_ranges (ps : list pragma) : range_table :=
  let disabled := pragma_ranges ps (TX "disable") [] in
  let enabled := pragma_ranges ps (TX "enable") [] in
  map (fun kv : option text * list span =>
         (fst kv, map (fun r => cut_range (fst r) (snd r) (rt_get enabled (fst kv))) (snd kv)))
      disabled.

(** search.py:376-385 [PragmaSuppressedSearcher]. *)
Definition pragma_suppressed (s : searcher) : searcher :=
  Searcher (s_parse s)
    (fun parsed =>
       do subs <- s_find s parsed;
       suppress_exclude_bytes subs (pragma_excluded_ranges (pf_pragmas parsed)))
    (s_check s) (s_approx s).

(** *** Rewriting searchers *)

(** search.py:559-579 *)
Definition ROOT_LABEL : label := TX "__root".
Definition MESSAGE_LABEL : label := TX "__message".
Definition URL_LABEL : label := TX "__url".
Definition CATEGORY_LABEL : label := TX "__category".
Definition SIGNIFICANT_LABEL : label := TX "__significant".

Definition located (ms : dict pymatch) : dict span :=
  flat_map (fun kv : label * pymatch =>
     match m_span (snd kv) with
     | Some sp => if span_eqb sp (-1, -1) then [] else [(fst kv, sp)]
     | None => []
     end) ms.

(** search.py:648-659: the [Substitution] built from a match dictionary and the
    filled-in replacements. *)
Definition sub_of_match (ms : dict pymatch) (reps : dict text) (key : option span)
  : res substitution :=
  let reps1 := ddel reps MESSAGE_LABEL in
  let reps2 := ddel reps1 URL_LABEL in
  let reps3 := ddel reps2 CATEGORY_LABEL in
  let reps4 := ddel reps3 SIGNIFICANT_LABEL in
  make_sub (Sub (located ms) ROOT_LABEL (Some reps4)
              (dget reps MESSAGE_LABEL) (dget reps1 URL_LABEL)
              (truthy (dget reps3 SIGNIFICANT_LABEL))
              (dget reps2 CATEGORY_LABEL) key).

(** search.py:635-659 [BaseRewritingSearcher.find_iter_parsed], from the list
    that [find_dicts_parsed] yields. *)
Fixpoint rewriting_find (parsed : parsed_file)
         (key_span_for_dict : dict pymatch -> res (option span))
         (dicts : list (dict pymatch * dict template)) : res (list substitution) :=
  match dicts with
  | [] => Ok []
  | (ms, ts) :: rest =>
      match rewrite_templates parsed ms ts with
      | Err RewriteError => rewriting_find parsed key_span_for_dict rest
      | Err e => Err e
      | Ok reps =>
          do key <- key_span_for_dict ms;
          do s <- sub_of_match ms reps key;
          do r <- rewriting_find parsed key_span_for_dict rest;
          Ok (s :: r)
      end
  end.

(** A compiled regex: number of groups, named groups, pattern text, and
    [finditer] giving [m.regs] of each match (oracle). *)
Record regex := Regex {
  r_groups : Z;
  r_groupindex : dict Z;
  r_pattern : text;
  r_finditer : text -> list (list span)
}.

Fixpoint zseq (a : Z) (n : nat) : list Z :=
  match n with O => [] | S n' => a :: zseq (a + 1) n' end.

(** search.py:673-684 [RegexSearcher.__attrs_post_init__]. *)
Definition regex_labels (r : regex) : list label :=
  map int_label (zseq 0 (Z.to_nat (r_groups r + 1))) ++ dkeys (r_groupindex r) ++ [ROOT_LABEL].
Definition regex_searcher_check (r : regex) (ts : dict template) : res unit :=
  do vs <- template_variables ts;
  if forallb (fun v => tmem v (regex_labels r)) vs then Ok tt else Err ValueError.

(** search.py:690-702: the match dictionary of one regex match. *)
Fixpoint numbered (i : Z) (l : list span) (txt : text) : dict pymatch :=
  match l with
  | [] => []
  | sp :: rest => ((if i =? 0 then ROOT_LABEL else int_label i), span_match txt sp)
                  :: numbered (i + 1) rest txt
  end.
Definition regex_dict (r : regex) (txt : text) (regs : list span) : res (dict pymatch) :=
  fold_left (fun acc kv =>
      do d <- acc;
      match dget d (int_label (snd kv)) with
      | Some m => Ok (dset d (fst kv) m)
      | None => Err KeyError
      end) (r_groupindex r) (Ok (numbered 0 regs txt)).

(** search.py:662-705 [RegexSearcher]. *)
Definition regex_searcher (r : regex) (ts : dict template) : res searcher :=
  do _ <- regex_searcher_check r ts;
  Ok (Searcher default_parse
        (fun parsed =>
           do ds <- mapM (fun regs => do d <- regex_dict r (pf_text parsed) regs; Ok (d, ts))
                         (r_finditer r (pf_text parsed));
           rewriting_find parsed (fun _ => Ok None) ds)
        default_check
        (Some (r_pattern r))).
