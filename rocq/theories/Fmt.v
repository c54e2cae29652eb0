(** Model of refex/formatting.py: applying and displaying substitutions. *)
From Verif Require Import Py Subst.

(** *** Applying substitutions *)

(** A replacement triple (new_text, start, end). *)
Notation replacement := (text * Z * Z)%type.

(** [x or 0] for an optional int. *)
Definition or0 (o : option Z) : Z := match o with Some z => z | None => 0 end.

(** formatting.py:720-744: the loop of [concatenate_replacements]. *)
Fixpoint concat_loop (data : text) (reps : list replacement) (joined : text)
         (first_start last_end : option Z) : res replacement :=
  match reps with
  | [] => Ok (joined, or0 first_start, or0 last_end)
  | (rewritten, start, fin) :: rest =>
      if start >? fin then Err ValueError
      else
        let first_start' := match first_start with None => Some start | _ => first_start end in
        let joined' := match last_end with
                       | Some le => joined ++ slice data le start
                       | None => joined
                       end in
        if match last_end with Some le => le >? start | None => false end then Err ValueError
        else concat_loop data rest (joined' ++ rewritten) first_start' (Some fin)
  end.

(** formatting.py:710-744 [concatenate_replacements]. *)
Definition concatenate_replacements (data : text) (reps : list replacement) : res replacement :=
  concat_loop data reps [] None None.

(** formatting.py:692-701 [_rewrite_to_replacements]. *)
Definition rewrite_to_replacements (label_to_span : dict span) (label_to_text : option (dict text))
  : res (list replacement) :=
  match label_to_text with
  | None => Ok []
  | Some r =>
      if forallb (fun k => dmem label_to_span k) (dkeys r) then
        Ok (flat_map (fun kv : label * span =>
              match dget r (fst kv) with
              | Some t => [(t, fst (snd kv), snd (snd kv))]
              | None => []
              end)
            (py_sorted (fun x y : label * span => span_leb (snd x) (snd y)) label_to_span))
      else Err AssertionError
  end.

(** formatting.py:704-707 [_substitution_to_replacement]. *)
Definition substitution_to_replacement (data : text) (s : substitution) : res replacement :=
  do reps <- rewrite_to_replacements (matched_spans s) (replacements s);
  concatenate_replacements data reps.

Definition rep_start (r : replacement) : Z := snd (fst r).

(** formatting.py:140-154 [apply_substitutions]. *)
Definition apply_substitutions (data : text) (subs : list substitution) : res text :=
  do all <- mapM (substitution_to_replacement data) subs;
  let all := py_sorted (fun x y => rep_start x <=? rep_start y) all in
  do r <- concatenate_replacements data all;
  let '(interior, inner_start, inner_end) := r in
  Ok (slice_to data inner_start ++ interior ++ slice_from data inner_end).

(** *** Line expansion *)

(** formatting.py:126-130 [_line_expanded_left]. *)
Definition line_expanded_left (s : text) (start : Z) : Z :=
  match rfind_char NL s 0 start with
  | Some p => Z.min start (p + 1)
  | None => 0
  end.

(** formatting.py:133-137 [_line_expanded_right]. *)
Definition line_expanded_right (s : text) (fin : Z) : Z :=
  match find_char NL s fin (tlen s) with
  | Some p => p
  | None => tlen s
  end.

(** formatting.py:98-123 [line_expanded_span]. *)
Definition line_expanded_span (s : text) (start fin : option Z) : Z * Z :=
  let start := match start with None => 0 | Some x => x end in
  let fin := match fin with None => tlen s | Some x => x end in
  let start := if start <? 0 then tlen s + start else start in
  let fin := if fin <? 0 then tlen s + fin else fin in
  let fin := if fin <? start then start else fin in
  (line_expanded_left s start, line_expanded_right s fin).

(** *** Diff blocks *)

(** formatting.py:191-197 [_split_labeled_span_after]. *)
Definition split_labeled_span_after (sp : span) (pos : Z) : span * span :=
  ((fst sp, pos + 1), (pos + 1, snd sp)).

(** formatting.py:200-218 [_partition_labeled_span], on the span (the labels are
    copied to all parts by [attr.evolve]). *)
Definition partition_span (contents : text) (sp : span) : span * option span * option span :=
  match find_char NL contents (fst sp) (snd sp) with
  | None => (sp, None, None)
  | Some first_newline =>
      let '(first, remainder) := split_labeled_span_after sp first_newline in
      match rfind_char NL contents (fst remainder) (snd remainder) with
      | None => (first, None, Some remainder)
      | Some last_newline =>
          let '(between, last) := split_labeled_span_after remainder last_newline in
          (first, Some between, Some last)
      end
  end.

(** formatting.py:244-260: the loop of [_sub_diff_blocks]. *)
Fixpoint diff_blocks_loop (contents : text) (diffs : list piece) (cur : list piece) (is_diff : bool)
  : list (bool * list piece) :=
  match diffs with
  | [] => [(is_diff, cur)]
  | DiffSpan sp l after :: rest =>
      diff_blocks_loop contents rest (cur ++ [DiffSpan sp l after]) true
  | LabeledSpan sp labels :: rest =>
      let '(first_line, intervening, last_line) := partition_span contents sp in
      let cur' := cur ++ [LabeledSpan first_line labels] in
      match last_line with
      | None => diff_blocks_loop contents rest cur' is_diff
      | Some last =>
          (is_diff, cur') ::
          match intervening with
          | Some mid => [(false, [LabeledSpan mid labels])]
          | None => []
          end ++
          diff_blocks_loop contents rest [LabeledSpan last labels] false
      end
  end.

(** formatting.py:221-260 [_sub_diff_blocks]. *)
Definition sub_diff_blocks (contents : text) (diffs : list piece) : list (bool * list piece) :=
  diff_blocks_loop contents diffs [] false.

(** *** Renderer *)

Definition ESC : char := 27.
(** colorama constants used in formatting.py:87-94, 175-176, 364-399, 415-416. *)
Definition ansi (code : text) : text := [ESC; 91] ++ code ++ [109].
Definition BRIGHT := ansi (TX "1").
Definition DIM := ansi (TX "2").
Definition RESET_ALL := ansi (TX "0").
Definition RED := ansi (TX "31").
Definition GREEN := ansi (TX "32").
Definition CYAN := ansi (TX "36").
(** formatting.py:87-94 [_DEFAULT_STYLES]. *)
Definition default_styles : list text :=
  [BRIGHT ++ ansi (TX "33"); BRIGHT ++ ansi (TX "34"); BRIGHT ++ ansi (TX "35"); BRIGHT ++ CYAN].

(** formatting.py:302-305: [_label_to_style] (keys are frozensets, compared as
    sets) and the position of the [itertools.cycle].  The cycle object is a
    shared default of all Renderer instances; the model threads it explicitly. *)
Record rstate := RState { label_to_style : list (list label * text); next_style : nat }.
Definition rstate_init (n : nat) : rstate := RState [([], [])] n.

Definition set_eqb (a b : list label) : bool :=
  forallb (fun x => tmem x b) a && forallb (fun x => tmem x a) b.
Fixpoint style_get (t : list (list label * text)) (k : list label) : option text :=
  match t with
  | [] => None
  | (k', v) :: rest => if set_eqb k' k then Some v else style_get rest k
  end.
(** [next(itertools.cycle(_DEFAULT_STYLES))] at position [n]. *)
Definition cycle_style (n : nat) : text := nth (n mod 4) default_styles [].

(** formatting.py:395-405 [_style_for]. *)
Definition style_for (st : rstate) (s : substitution) (labels : list label) : rstate * text :=
  if (Z.of_nat (length (matched_spans s)) >? 1) && set_eqb labels [primary_label s] then (st, BRIGHT)
  else match style_get (label_to_style st) labels with
       | Some sty => (st, sty)
       | None =>
           let sty := cycle_style (next_style st) in
           (RState (label_to_style st ++ [(labels, sty)]) (S (next_style st)), sty)
       end.

(** formatting.py:389-393 [_style]. *)
Definition style_text (color : bool) (styles t : text) : text :=
  if color then styles ++ t ++ RESET_ALL else t.

(** formatting.py:429-436: style each line, keeping the newline outside. *)
Definition style_lines (color : bool) (style s : text) : text :=
  concat (map (fun line =>
    if endswith [NL] line then style_text color style (slice line 0 (-1)) ++ [NL]
    else style_text color style line) (splitlines_keep s)).

(** formatting.py:407-438 [_render_diff_block]. *)
Fixpoint render_diff_block (color : bool) (contents : text) (s : substitution)
         (before is_diff : bool) (block : list piece) (st : rstate) : rstate * text :=
  match block with
  | [] => (st, [])
  | p :: rest =>
      let '(st1, style, str) :=
        match p with
        | DiffSpan (a, b) _ after =>
            (st, (if before then RED else GREEN) ++ BRIGHT,
             if before then slice contents a b else after)
        | LabeledSpan (a, b) labels =>
            let '(st', sty) := style_for st s labels in
            (st', sty ++ (if is_diff then DIM else []), slice contents a b)
        end in
      let '(st2, tail) := render_diff_block color contents s before is_diff rest st1 in
      (st2, style_lines color style str ++ tail)
  end.

(** formatting.py:352-358 [create_diff]. *)
Definition create_diff (prefix s : text) : text :=
  match s with
  | [] => []
  | _ =>
      let s' := if endswith [NL] s then s else s ++ [NL] in
      concat (map (fun line => prefix ++ line) (splitlines_keep s'))
  end.

(** formatting.py:360-377: the loop over the blocks. *)
Fixpoint render_blocks (color : bool) (contents : text) (s : substitution)
         (blocks : list (bool * list piece)) (st : rstate) : rstate * text :=
  match blocks with
  | [] => (st, [])
  | (is_diff, block) :: rest =>
      let '(st', out) :=
        if is_diff : bool then
          let '(st1, b) := render_diff_block color contents s true true block st in
          let '(st2, a) := render_diff_block color contents s false true block st1 in
          (st2, create_diff (style_text color RED (TX "-")) b
                ++ create_diff (style_text color GREEN (TX "+")) a)
        else
          let '(st1, b) := render_diff_block color contents s true true block st in
          (st1, create_diff (TX " ") b) in
      let '(st'', tail) := render_blocks color contents s rest st' in
      (st'', out ++ tail)
  end.

Fixpoint min_list (x : Z) (l : list Z) : Z :=
  match l with [] => x | y :: r => min_list (Z.min x y) r end.
Fixpoint max_list (x : Z) (l : list Z) : Z :=
  match l with [] => x | y :: r => max_list (Z.max x y) r end.
(** formatting.py:333-334; [min]/[max] of an empty sequence raise ValueError. *)
Definition match_hull (d : dict span) : res span :=
  match d with
  | [] => Err ValueError
  | (_, (a, b)) :: rest =>
      Ok (min_list a (map (fun kv : label * span => fst (snd kv)) rest),
          max_list b (map (fun kv : label * span => snd (snd kv)) rest))
  end.

(** [if sub.replacements:] — neither None nor empty. *)
Definition has_replacements (s : substitution) : bool :=
  match replacements s with Some (_ :: _) => true | _ => false end.

(** formatting.py:307-387 [Renderer.render].  [fmt head match tail] stands for
    [self._match_format.format] with the other variables of [extra] fixed. *)
Definition render (color : bool) (fmt : text -> text -> text -> text)
           (contents : text) (s : substitution) (st : rstate) : res (rstate * (bool * text)) :=
  do diffs <- as_diff s;
  do hull <- match_hull (matched_spans s);
  let '(match_start, match_end) := hull in
  let '(line_start, line_end) := line_expanded_span contents (Some match_start) (Some match_end) in
  if has_replacements s then
    let ext := LabeledSpan (line_start, match_start) [] :: diffs
               ++ [LabeledSpan (match_end, line_end) []] in
    let '(st', out) := render_blocks color contents s (sub_diff_blocks contents ext) st in
    Ok (st', (true, out))
  else
    let '(st', display) := render_diff_block color contents s true false diffs st in
    Ok (st', (false, fmt (slice contents line_start match_start) display
                         (slice contents match_end line_end) ++ [NL])).

(** formatting.py:300: the default match format ['{head}{match}{tail}']. *)
Definition default_fmt (head m tail : text) : text := head ++ m ++ tail.

(** formatting.py:174-176. *)
Definition diff_separator : text := RESET_ALL ++ CYAN ++ TX "---" ++ RESET_ALL ++ [NL].

(** formatting.py:157-180 [diff_substitutions] (the loop; [last] = last_was_diff). *)
Fixpoint diff_substitutions_loop (color : bool) (fmt : text -> text -> text -> text)
         (contents : text) (subs : list substitution) (last : bool) (st : rstate)
  : res (rstate * list (bool * text)) :=
  match subs with
  | [] => Ok (st, [])
  | s :: rest =>
      do r <- render color fmt contents s st;
      let '(st1, (is_diff, display)) := r in
      do rr <- diff_substitutions_loop color fmt contents rest is_diff st1;
      let '(st2, out) := rr in
      Ok (st2, (is_diff, if last then diff_separator ++ display else display) :: out)
  end.
Definition diff_substitutions color fmt contents subs st :=
  diff_substitutions_loop color fmt contents subs false st.
