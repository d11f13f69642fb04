(** Model of src/parser/structure/*.rs and of IndentedLine::parse_header.  No proofs in this file.

    Regular expressions are written out as functions; each is deterministic or has the greedy choice
    spelled out. In the comments "(.* )" stands for the group without the space. External functions are arguments: [rf] is [roman::from], [up] is [char::is_uppercase].
    Error messages and debug contexts are not modelled. *)
From Verif Require Export ModelTypes.

(** src/parser/structure/act.rs ParsingContext; sae.rs:69-73 RestOfWrapUpMode *)
Inductive pctx := FullAct | BlockAm.
Inductive wmode := KeepIt | GiveIt.
Definition is_full (c : pctx) : bool := match c with FullAct => true | BlockAm => false end.

(** [QuoteCheck::update(line)?] *)
Definition qc_step (q : quote_check) (l : line) : outcome quote_check :=
  let '(q', r) := qc_update q l in let* _ := r in Ok q'.

(** ** Header regular expressions *)
Definition is_lower (c : char) : bool := ((97 <=? c) && (c <=? 122))%N.
Definition is_upper_az (c : char) : bool := ((65 <=? c) && (c <=? 90))%N.
Definition no_newline (s : str) : bool := negb (existsb (N.eqb 10) s).
(** One character *)
Definition eat (c : char) (s : str) : option str :=
  match s with d :: s' => if (c =? d)%N then Some s' else None | [] => None end.
(** [[0-9]+], greedy; what follows it never starts with a digit in these expressions *)
Definition eat_digits (s : str) : option (str * str) :=
  let '(d, r) := span is_digit s in if is_empty d then None else Some (d, r).
(** [ +(.* )$]: all spaces, then the rest, which must not contain a line feed *)
Definition eat_tail (s : str) : option str :=
  match eat 32 s with
  | Some s' => let r := snd (span (N.eqb 32) s') in if no_newline r then Some r else None
  | None => None
  end.
(** Every matcher returns the first group (the identifier) and the last group (the rest).
    sae.rs:300 [^\(([0-9]+[a-z]?)\) +(.* )$] *)
Definition match_paragraph (s : str) : option (str * str) :=
  match eat 40 s with
  | Some s =>
      match eat_digits s with
      | Some (d, s) =>
          let '(i, s) := match s with c :: s' => if is_lower c then (d ++ [c], s') else (d, s) | [] => (d, s) end in
          match eat 41 s with
          | Some s => match eat_tail s with Some r => Some (i, r) | None => None end
          | None => None
          end
      | None => None
      end
  | None => None
  end.
(** sae.rs:325, 379 [^([0-9]+(/?[a-z])?)\. +(.* )$] *)
Definition match_numeric (s : str) : option (str * str) :=
  match eat_digits s with
  | Some (d, s) =>
      let '(i, s) :=
        match s with
        | c :: s' =>
            if is_lower c then (d ++ [c], s')
            else if (c =? 47)%N then
              match s' with e :: s'' => if is_lower e then (d ++ [c; e], s'') else (d, s) | [] => (d, s) end
            else (d, s)
        | [] => (d, s)
        end in
      match eat 46 s with
      | Some s => match eat_tail s with Some r => Some (i, r) | None => None end
      | None => None
      end
  | None => None
  end.
(** sae.rs:348 [^([a-z]|cs|dz|gy|ly|ny|sz|ty|zs)\) +(.* )$] *)
Definition digraphs : list str := map lit ["cs"; "dz"; "gy"; "ly"; "ny"; "sz"; "ty"; "zs"]%string.
Definition match_alpha (s : str) : option (str * str) :=
  match s with
  | c :: s1 =>
      match eat 41 s1 with
      | Some s => if is_lower c then match eat_tail s with Some r => Some ([c], r) | None => None end else None
      | None =>
          match s1 with
          | d :: s2 =>
              if existsb (str_eqb [c; d]) digraphs then
                match eat 41 s2 with
                | Some s => match eat_tail s with Some r => Some ([c; d], r) | None => None end
                | None => None
                end
              else None
          | [] => None
          end
      end
  | [] => None
  end.
(** sae.rs:404 [^([a-z]?[a-z])\) +(.* )$] *)
Definition match_alpha_sub (s : str) : option (str * str) :=
  match s with
  | c :: s1 =>
      if is_lower c then
        match eat 41 s1 with
        | Some s => match eat_tail s with Some r => Some ([c], r) | None => None end
        | None =>
            match s1 with
            | d :: s2 =>
                if is_lower d then
                  match eat 41 s2 with
                  | Some s => match eat_tail s with Some r => Some ([c; d], r) | None => None end
                  | None => None
                  end
                else None
            | [] => None
            end
        end
      else None
  | [] => None
  end.
(** article.rs:58-61 [^(([0-9]+:)?([0-9]+(/[A-Z])?))\. ?§ +(.* )$] *)
Definition eat_number_slash (s : str) : option (str * str) :=
  match eat_digits s with
  | Some (d, s) =>
      Some (match s with
            | c :: e :: s' => if (c =? 47)%N && is_upper_az e then (d ++ [c; e], s') else (d, s)
            | _ => (d, s)
            end)
  | None => None
  end.
Definition match_article (s : str) : option (str * str) :=
  let book := match eat_digits s with
              | Some (d, s') => match eat 58 s' with Some s'' => Some (d ++ [58%N], s'') | None => None end
              | None => None
              end in
  let '(b, s) := match book with Some (b, s') => (b, s') | None => ([], s) end in
  match eat_number_slash s with
  | Some (n, s) =>
      match eat 46 s with
      | Some s =>
          let s := match eat 32 s with Some s' => s' | None => s end in
          match eat (chr "§") s with
          | Some s => match eat_tail s with Some r => Some (b ++ n, r) | None => None end
          | None => None
          end
      | None => None
      end
  | None => None
  end.

(** src/util/indentedline.rs:180-202 parse_header. The last group always reaches the end of the line. *)
Definition parse_header {T} (m : str -> option (str * str)) (parse : str -> outcome T) (blacklist : list str)
    (l : line) : outcome (option (T * line)) :=
  match m (content l) with
  | None => Ok None
  | Some (i, rest) =>
      match parse i with
      | Panic => Panic
      | Err => Ok None
      | Ok id =>
          let* r := slice_bytes l (utf8_len (content l) - utf8_len rest)%N (Some (utf8_len (content l))) in
          if existsb (fun b => starts_with b (content r)) blacklist then Ok None else Ok (Some (id, r))
      end
  end.

(** ** src/parser/structure/sae.rs *)
(** sae.rs:52-57 ExtractMultipleResult *)
Record em_result (T : Type) := mkEm { em_elems : T; em_wrap : option str; em_rest : list line }.
Arguments mkEm {T}.
Arguments em_elems {T}.
Arguments em_wrap {T}.
Arguments em_rest {T}.
Definition em_map {A B} (f : A -> B) (r : em_result A) : em_result B := mkEm (f (em_elems r)) (em_wrap r) (em_rest r).
(** [Result::or_else]: the alternative runs only on an error *)
Definition or_else {A} (x : outcome A) (y : outcome A) : outcome A := match x with Err => y | _ => x end.

(** sae.rs:115-122 appending the lines of [rest_of_wrap_up] to the wrap up *)
Definition add_wrap (w : option str) (l : line) : option str :=
  match w with Some s => Some (append_to l s) | None => Some (content l) end.
Definition keep_rest (w : option str) (rest : list line) : option str := fold_left add_wrap rest w.

Section SAEParser.
  (** The associated types and required functions of trait SAEParser (sae.rs:75-91). *)
  Context {I C : Type} `{IdentCommon I}.
  Variable header : line -> outcome (option (I * line)).
  Variable children : pctx -> I -> option line -> list line -> outcome (em_result C).

  (** sae.rs:101-146 the loop of [parse]: the intro, and the children if some were found *)
  Fixpoint parse_scan (ctx : pctx) (id : I) (q : quote_check) (prev : option line) (intro : str) (body : list line)
    : outcome (str * option (em_result C)) :=
    match body with
    | [] => let* _ := qc_check_end q in Ok (intro, None)
    | l :: rest =>
        let* q := qc_step q l in
        let next := parse_scan ctx id q (if l_empty l then prev else Some l) (append_to l intro) rest in
        if q_begin q then next
        else match children ctx id prev body with
             | Ok e => Ok (intro, Some e)
             | Panic => Panic
             | Err => next
             end
    end.
  (** sae.rs:94-163 parse *)
  Definition new_sae (id : I) (b : sae_body C) : sae I C := mkSae id b si_default None.
  Definition sae_parse (ctx : pctx) (mode : wmode) (id : I) (body : list line) : outcome (sae I C * list line) :=
    let* (intro, found) := parse_scan ctx id qc_default None [] body in
    match found with
    | Some e =>
        match mode with
        | KeepIt => Ok (new_sae id (BChildren intro (em_elems e) (keep_rest (em_wrap e) (em_rest e))), [])
        | GiveIt => Ok (new_sae id (BChildren intro (em_elems e) (em_wrap e)), em_rest e)
        end
    | None =>
        match ctx, mode with
        | BlockAm, GiveIt =>
            match position (fun l => negb (l_just l)) body with
            | Some k => Ok (new_sae id (BText (join (firstn (k + 1) body))), skipn (k + 1) body)
            | None => Ok (new_sae id (BText intro), [])
            end
        | _, _ => Ok (new_sae id (BText intro), [])
        end
    end.
  (** sae.rs:271-288 parse_and_check_header *)
  Definition check_header (last : I) (expected_indent : Z) (l : line) : outcome (option (I * line)) :=
    if negb (indent_less_or_eq l expected_indent) then Ok None
    else
      let* h := header l in
      match h with
      | Some (id, rest) => if id_next id last then Ok (Some (id, rest)) else Ok None
      | None => Ok None
      end.
  (** sae.rs:192-210 the loop of [extract_multiple]: identifier and body of the unfinished element,
      and the finished elements *)
  Fixpoint em_loop (ctx : pctx) (hi : Z) (q : quote_check) (id : I) (body : list line) (elems : list (sae I C))
      (lines : list line) : outcome (I * list line * list (sae I C)) :=
    match lines with
    | [] => let* _ := qc_check_end q in Ok (id, body, elems)
    | l :: rest =>
        let* q := qc_step q l in
        let* h := (if q_begin q then Ok None else check_header id hi l) in
        match h with
        | Some (id', r) =>
            let* (e, _) := sae_parse ctx KeepIt id body in
            em_loop ctx hi q id' [r] (elems ++ [e]) rest
        | None => em_loop ctx hi q id (if l_empty l then body else body ++ [l]) elems rest
        end
    end.
  (** sae.rs:211-260 the last element and the wrap up *)
  Definition em_finish (ctx : pctx) (wrap_up : bool) (hi : Z) (id : I) (body : list line) (elems : list (sae I C))
    : outcome (em_result (list (sae I C))) :=
    match wrap_up, ctx with
    | true, FullAct =>
        let '(body, wrap) :=
          match position (fun l => indent_less_or_eq l hi) body with
          | Some k => (firstn k body, Some (join (skipn k body)))
          | None => (body, None)
          end in
        let* (e, _) := sae_parse ctx KeepIt id body in
        Ok (mkEm (elems ++ [e]) wrap [])
    | true, BlockAm =>
        let* (e, w) := sae_parse ctx GiveIt id body in
        let '(w, rest) :=
          match position (fun l => negb (l_just l)) w with
          | Some k => (firstn (k + 1) w, skipn (k + 1) w)
          | None => (w, [])
          end in
        Ok (mkEm (elems ++ [e]) (if is_empty w then None else Some (join w)) rest)
    | false, _ =>
        let* (e, _) := sae_parse ctx KeepIt id body in
        Ok (mkEm (elems ++ [e]) None [])
    end.
  (** sae.rs:166-269 extract_multiple; [lines[0]] panics on an empty list *)
  Definition extract_multiple (ctx : pctx) (wrap_up check_count : bool) (expected : option I) (lines : list line)
    : outcome (em_result (list (sae I C))) :=
    match lines with
    | [] => Panic
    | first :: rest_lines =>
        let* h := header first in
        match h with
        | None => Err
        | Some (id, rest) =>
            let* _ := ensure (match expected with Some e => id_eqb id e | None => id_first id end) in
            let* q := qc_step qc_default rest in
            let* (ib, elems) := em_loop ctx (indent first) q id [rest] [] rest_lines in
            let* r := em_finish ctx wrap_up (indent first) (fst ib) (snd ib) elems in
            let* _ := ensure (negb check_count || (1 <? List.length (em_elems r))%nat) in
            Ok r
        end
    end.
End SAEParser.

(** sae.rs:291-423 the five parsers *)
Definition pont : list str := map lit ["pont"; "alpont"]%string.
Definition paragraph_header : line -> outcome (option (paragraph_id * line)) :=
  parse_header match_paragraph paragraph_parse [lit "bekezdés"].
Definition numeric_header : line -> outcome (option (numeric * line)) := parse_header match_numeric numeric_parse pont.
Definition alpha_point_header : line -> outcome (option (hic * line)) := parse_header match_alpha hic_parse pont.
Definition alpha_subpoint_header (prefix : option hic) (l : line) : outcome (option (prefixed * line)) :=
  let* h := parse_header match_alpha_sub prefixed_parse pont l in
  match h with
  | Some (i, r) => if opt_eqb hic_eqb (p_prefix i) prefix then Ok (Some (i, r)) else Ok None
  | None => Ok None
  end.
Definition no_children {I C} (ctx : pctx) (id : I) (prev : option line) (body : list line) : outcome (em_result C) := Err.

Definition extract_num_subpoints (ctx : pctx) (w c : bool) (e : option numeric) (ls : list line)
  : outcome (em_result (list num_subpoint)) := extract_multiple numeric_header no_children ctx w c e ls.
Definition extract_alpha_subpoints (prefix : option hic) (ctx : pctx) (w c : bool) (e : option prefixed) (ls : list line)
  : outcome (em_result (list alpha_subpoint)) :=
  extract_multiple (alpha_subpoint_header prefix) no_children ctx w c e ls.
Definition num_point_children (ctx : pctx) (id : numeric) (prev : option line) (body : list line)
  : outcome (em_result num_children) :=
  omap (em_map NcAlpha) (extract_alpha_subpoints None ctx true true None body).
Definition extract_num_points (ctx : pctx) (w c : bool) (e : option numeric) (ls : list line)
  : outcome (em_result (list num_point)) := extract_multiple numeric_header num_point_children ctx w c e ls.
Definition alpha_point_children (ctx : pctx) (id : hic) (prev : option line) (body : list line)
  : outcome (em_result alpha_children) :=
  or_else (omap (em_map AcNum) (extract_num_subpoints ctx true true None body))
          (omap (em_map AcAlpha) (extract_alpha_subpoints (Some id) ctx true true None body)).
Definition extract_alpha_points (ctx : pctx) (w c : bool) (e : option hic) (ls : list line)
  : outcome (em_result (list alpha_point)) := extract_multiple alpha_point_header alpha_point_children ctx w c e ls.

(** ** src/parser/structure/quote.rs *)
(** quote.rs:25-33, the state functions as a type *)
Inductive qb_state := QStart | QStartExpectIntro | QIntro | QBlockWrap | QWaitBlock | QWaitWrap | QInside | QWrap.
Record qb_parser := mkQP {
  qp_state : qb_state; qp_blocks : list quoted_block; qp_wrap : str; qp_intro : str; qp_bwrap : str;
  qp_lines : list line; qp_quote : quote_check }.
Definition qp_to (p : qb_parser) (s : qb_state) : qb_parser :=
  mkQP s (qp_blocks p) (qp_wrap p) (qp_intro p) (qp_bwrap p) (qp_lines p) (qp_quote p).
Definition first_in (cs : str) (l : line) : bool := match content l with c :: _ => existsb (N.eqb c) cs | [] => false end.
Definition last_in (cs : str) (l : line) : bool :=
  match rev (content l) with c :: _ => existsb (N.eqb c) cs | [] => false end.
Definition open_quotes : str := lit "„“".
Definition open_brackets : str := lit "([".
Definition close_brackets : str := lit ")]".
(** quote.rs:140-154 state_inside_quoted_block *)
Definition qs_inside (p : qb_parser) (l : line) : qb_parser :=
  if negb (l_empty l) && negb (q_end (qp_quote p)) && last_in (lit "”") l then
    mkQP QWaitBlock (qp_blocks p ++ [mkQb None (qp_lines p ++ [slice l 0 (Some (-1)%Z)]) None])
         (qp_wrap p) (qp_intro p) (qp_bwrap p) [] (qp_quote p)
  else mkQP (qp_state p) (qp_blocks p) (qp_wrap p) (qp_intro p) (qp_bwrap p) (qp_lines p ++ [l]) (qp_quote p).
(** quote.rs:155-157 state_wrap_up *)
Definition qs_wrap (p : qb_parser) (l : line) : qb_parser :=
  mkQP (qp_state p) (qp_blocks p) (append_to l (qp_wrap p)) (qp_intro p) (qp_bwrap p) (qp_lines p) (qp_quote p).
(** quote.rs:58-70 state_start *)
Definition qs_start (p : qb_parser) (l : line) : qb_parser :=
  if l_empty l then p
  else if first_in open_quotes l then qs_inside (qp_to p QInside) (slice l 1 None)
  else qs_wrap (qp_to p QWrap) l.
(** quote.rs:86-97 state_quoted_block_intro *)
Definition qs_intro (p : qb_parser) (l : line) : qb_parser :=
  if negb (l_empty l) && negb (q_end (qp_quote p)) && last_in close_brackets l then
    mkQP QStartExpectIntro (qp_blocks p) (qp_wrap p) (append_to (slice l 0 (Some (-1)%Z)) (qp_intro p))
         (qp_bwrap p) (qp_lines p) (qp_quote p)
  else mkQP (qp_state p) (qp_blocks p) (qp_wrap p) (append_to l (qp_intro p)) (qp_bwrap p) (qp_lines p) (qp_quote p).
(** quote.rs:72-84 state_start_expect_intro *)
Definition qs_start_expect (p : qb_parser) (l : line) : qb_parser :=
  if l_empty l then p
  else if first_in open_brackets l then qs_intro (qp_to p QIntro) (slice l 1 None)
  else qs_start (qp_to p QStart) l.
(** quote.rs:99-110 state_quoted_block_wrap_up *)
Definition qs_block_wrap (p : qb_parser) (l : line) : qb_parser :=
  if negb (l_empty l) && negb (q_end (qp_quote p)) && last_in close_brackets l then
    mkQP QWaitWrap (qp_blocks p) (qp_wrap p) (qp_intro p) (append_to (slice l 0 (Some (-1)%Z)) (qp_bwrap p))
         (qp_lines p) (qp_quote p)
  else mkQP (qp_state p) (qp_blocks p) (qp_wrap p) (qp_intro p) (append_to l (qp_bwrap p)) (qp_lines p) (qp_quote p).
(** quote.rs:126-138 state_waiting_for_quoted_block_wrap_up *)
Definition qs_wait_wrap (p : qb_parser) (l : line) : qb_parser :=
  if l_empty l then p
  else if first_in open_brackets l then qs_block_wrap (qp_to p QBlockWrap) (slice l 1 None)
  else qs_wrap (qp_to p QWrap) l.
(** quote.rs:112-124 state_waiting_for_quoted_block *)
Definition qs_wait_block (p : qb_parser) (l : line) : qb_parser :=
  if l_empty l then p
  else if first_in open_quotes l then qs_inside (qp_to p QInside) (slice l 1 None)
  else qs_wait_wrap (qp_to p QWaitWrap) l.
(** quote.rs:52-56 parse_line *)
Definition qb_line (p : qb_parser) (l : line) : outcome qb_parser :=
  let* q := qc_step (qp_quote p) l in
  let p := mkQP (qp_state p) (qp_blocks p) (qp_wrap p) (qp_intro p) (qp_bwrap p) (qp_lines p) q in
  Ok (match qp_state p with
      | QStart => qs_start p l
      | QStartExpectIntro => qs_start_expect p l
      | QIntro => qs_intro p l
      | QBlockWrap => qs_block_wrap p l
      | QWaitBlock => qs_wait_block p l
      | QWaitWrap => qs_wait_wrap p l
      | QInside => qs_inside p l
      | QWrap => qs_wrap p l
      end).
Fixpoint qb_run (p : qb_parser) (ls : list line) : outcome qb_parser :=
  match ls with [] => Ok p | l :: ls' => let* p := qb_line p l in qb_run p ls' end.
(** quote.rs:36-50 new *)
Definition qb_new (expect_intro : bool) : qb_parser :=
  mkQP (if expect_intro then QStartExpectIntro else QStart) [] [] [] [] [] qc_default.
Definition non_empty_str (s : str) : option str := if is_empty s then None else Some s.
(** [blocks.first_mut()], [blocks.last_mut()] *)
Definition set_first_intro (bs : list quoted_block) (i : option str) : list quoted_block :=
  match bs with b :: bs' => mkQb i (qb_lines b) (qb_wrap b) :: bs' | [] => [] end.
Fixpoint set_last_wrap (bs : list quoted_block) (w : option str) : list quoted_block :=
  match bs with
  | [] => []
  | [b] => [mkQb (qb_intro b) (qb_lines b) w]
  | b :: bs' => b :: set_last_wrap bs' w
  end.
(** quote.rs:160-221 extract_multiple *)
Definition extract_quoted (prev : option line) (ls : list line) : outcome (em_result (list quoted_block)) :=
  let expect_intro := match prev with Some l => ends_with (lit ":") (content l) | None => false end in
  match ls with
  | [] => Err
  | first :: _ =>
      let* _ := ensure (first_in (if expect_intro then open_brackets ++ open_quotes else open_quotes) first) in
      let* p := qb_run (qb_new expect_intro) ls in
      let* _ := ensure (match qp_state p with QWaitBlock | QWrap | QWaitWrap => true | _ => false end) in
      let* _ := ensure (negb (is_empty (qp_blocks p))) in
      Ok (mkEm (set_last_wrap (set_first_intro (qp_blocks p) (non_empty_str (qp_intro p))) (non_empty_str (qp_bwrap p)))
               (non_empty_str (qp_wrap p)) [])
  end.

(** ** sae.rs:291-315 paragraphs *)
Definition paragraph_children (ctx : pctx) (id : paragraph_id) (prev : option line) (body : list line)
  : outcome (em_result par_children) :=
  or_else (omap (em_map PcQuoted) (extract_quoted prev body))
  (or_else (omap (em_map PcNum) (extract_num_points ctx true true None body))
           (omap (em_map PcAlpha) (extract_alpha_points ctx true true None body))).
Definition extract_paragraphs (ctx : pctx) (w c : bool) (e : option paragraph_id) (ls : list line)
  : outcome (em_result (list paragraph)) := extract_multiple paragraph_header paragraph_children ctx w c e ls.
Definition parse_paragraph (ctx : pctx) (mode : wmode) (id : paragraph_id) (ls : list line) : outcome (paragraph * list line) :=
  sae_parse paragraph_children ctx mode id ls.

(** ** src/parser/structure/article.rs *)
(** article.rs:30-34 ArticleParserFactory (the context is passed separately); 87-91 ArticleParser *)
Record article_factory := mkFac { af_last : option article_id; af_indent : option Z }.
Definition af_new : article_factory := mkFac None None.
Record article_parser := mkAP { ap_id : article_id; ap_lines : list line }.
(** article.rs:45-83 try_create_from_header; [Err] leaves the factory unchanged *)
Definition try_article (ctx : pctx) (f : article_factory) (expected : option article_id) (l : line)
  : outcome (article_factory * article_parser) :=
  let* _ := ensure (match af_indent f with Some e => indent_less_or_eq l e | None => true end) in
  let* h := parse_header match_article article_parse [] l in
  match h with
  | None => Err
  | Some (id, rest) =>
      let* _ := ensure (match expected with
                        | Some e => article_eqb e id
                        | None => match af_last f with
                                  | Some last => article_next id last
                                  | None => negb (is_full ctx) || article_first id
                                  end
                        end) in
      Ok (mkFac (Some id) (Some (indent l)), mkAP id [rest])
  end.
(** article.rs:94-96 feed_line *)
Definition ap_feed (p : article_parser) (l : line) : article_parser := mkAP (ap_id p) (ap_lines p ++ [l]).
(** article.rs:140-154 extract_title; the loop takes lines until the title ends with ']' *)
Fixpoint title_loop (title : str) (ls : list line) : str * list line :=
  if ends_with (lit "]") title then (title, ls)
  else match ls with [] => (title, []) | l :: ls' => title_loop (append_to l title) ls' end.
Definition extract_title (ls : list line) : outcome (option str * list line) :=
  match ls with
  | [] => Panic
  | l :: ls' =>
      match content l with
      | c :: t =>
          if (c =? 91)%N then
            let '(title, rest) := title_loop t ls' in
            if ends_with (lit "]") title then Ok (Some (removelast title), rest) else Err
          else Ok (None, ls)
      | [] => Ok (None, ls)
      end
  end.
(** article.rs:97-138 finish; [self.lines[0]] panics when the title has used up all lines.
    The assertion of line 118 cannot fail: without [parse_wrap_up] there is no wrap up. *)
Definition ap_finish (ctx : pctx) (p : article_parser) : outcome article :=
  let* (title, ls) := extract_title (ap_lines p) in
  match ls with
  | [] => Panic
  | l :: ls' =>
      let ls := if l_empty l then ls' else ls in
      match extract_paragraphs ctx false true None ls with
      | Panic => Panic
      | Ok e => if is_some (em_wrap e) then Panic else Ok (mkArticle (ap_id p) title (em_elems e) None)
      | Err =>
          let* (e, _) := parse_paragraph ctx KeepIt None ls in
          Ok (mkArticle (ap_id p) title [e] None)
      end
  end.

(** ** src/parser/structure/structural_element.rs, subtitle.rs *)
(** structural_element.rs:33-40 get_title_regex: the first group, the text before the suffix *)
Definition match_se (ty : se_type) (s : str) : option str :=
  let suffix := match ty with
    | TBook => lit " KÖNYV" | TPart _ => lit " RÉSZ" | TTitle => lit ". CÍM" | TChapter => lit ". fejezet" end in
  let s' := match ty with TChapter => map ascii_lower s | _ => s end in
  match strip_suffix suffix s' with
  | Some r => let g := firstn (List.length r) s in if no_newline g then Some g else None
  | None => None
  end.
(** structural_element.rs:56-61 StructuralElementParser *)
Record se_parser := mkSP { sp_id : numeric; sp_title : str; sp_ty : se_type }.
(** structural_element.rs:42-53 try_create_from_header *)
Definition try_se (rf : str -> option Z) (ty : se_type) (l : line) : outcome (option se_parser) :=
  match match_se ty (content l) with
  | None => Ok None
  | Some i =>
      match se_parse_identifier rf ty i with
      | Ok id => Ok (Some (mkSP id [] ty))
      | Err => Ok None
      | Panic => Panic
      end
  end.
Definition sp_feed (p : se_parser) (l : line) : se_parser := mkSP (sp_id p) (append_to l (sp_title p)) (sp_ty p).
Definition sp_finish (p : se_parser) : struct_elem := mkSe (sp_id p) (sp_title p) (sp_ty p) None.

(** subtitle.rs:36 [^([0-9]+(/[A-Z])?)\. ([^é§].* )$] *)
Definition match_subtitle (s : str) : option (str * str) :=
  match eat_number_slash s with
  | Some (i, s) =>
      match eat 46 s with
      | Some s =>
          match eat 32 s with
          | Some (c :: t) =>
              if negb ((c =? chr "é")%N || (c =? chr "§")%N) && no_newline t then Some (i, c :: t) else None
          | _ => None
          end
      | None => None
      end
  | None => None
  end.
(** subtitle.rs:55-59 SubtitleParser *)
Record st_parser := mkStP { tp_id : option numeric; tp_title : str }.
(** subtitle.rs:26-52 try_create_from_header *)
Definition try_subtitle (up : char -> bool) (ctx : pctx) (prev_empty : bool) (l : line) : outcome (option st_parser) :=
  if negb (l_bold l) then Ok None
  else match match_subtitle (content l) with
       | Some (i, t) =>
           match numeric_parse i with
           | Ok id => Ok (Some (mkStP (Some id) t))
           | Err => Ok None
           | Panic => Panic
           end
       | None =>
           if prev_empty || negb (is_full ctx) then
             match content l with
             | c :: _ => if up c then Ok (Some (mkStP None (content l))) else Ok None
             | [] => Ok None
             end
           else Ok None
       end.
Definition tp_feed (p : st_parser) (l : line) : st_parser := mkStP (tp_id p) (append_to l (tp_title p)).
Definition tp_finish (p : st_parser) : subtitle := mkSub (tp_id p) (tp_title p) None.

(** ** src/parser/structure/act.rs *)
(** act.rs:137-143 ParseState *)
Inductive act_state :=
| AsPreamble | AsArticle (p : article_parser) | AsSubtitle (p : st_parser) | AsStruct (p : se_parser).
(** act.rs:54-60 se_parser_factories *)
Definition se_types : list se_type := [TBook; TPart false; TPart true; TTitle; TChapter].
Fixpoint first_se (rf : str -> option Z) (tys : list se_type) (l : line) : outcome (option se_parser) :=
  match tys with
  | [] => Ok None
  | ty :: tys' =>
      let* r := try_se rf ty l in
      match r with Some p => Ok (Some p) | None => first_se rf tys' l end
  end.
(** act.rs:66-85 the new state a header line asks for *)
Definition act_header_line (rf : str -> option Z) (up : char -> bool) (ctx : pctx) (f : article_factory)
    (prev_empty : bool) (l : line) : outcome (option (act_state * article_factory)) :=
  let* se := first_se rf se_types l in
  match se with
  | Some p => Ok (Some (AsStruct p, f))
  | None =>
      let* st := try_subtitle up ctx prev_empty l in
      match st with
      | Some p => Ok (Some (AsSubtitle p, f))
      | None =>
          match try_article ctx f None l with
          | Ok (f', p) => Ok (Some (AsArticle p, f'))
          | Err => Ok None
          | Panic => Panic
          end
      end
  end.
(** act.rs:87-92, 107-111: the finished child, if any *)
Definition act_finish (ctx : pctx) (s : act_state) : outcome (list act_child) :=
  match s with
  | AsPreamble => Ok []
  | AsArticle p => let* a := ap_finish ctx p in Ok [ChArticle a]
  | AsStruct p => Ok [ChStruct (sp_finish p)]
  | AsSubtitle p => Ok [ChSubtitle (tp_finish p)]
  end.
(** act.rs:63-103 the loop *)
Fixpoint act_loop (rf : str -> option Z) (up : char -> bool) (ctx : pctx) (q : quote_check) (f : article_factory)
    (prev_empty : bool) (st : act_state) (preamble : str) (done : list act_child) (lines : list line)
  : outcome (act_state * str * list act_child) :=
  match lines with
  | [] => let* _ := qc_check_end q in Ok (st, preamble, done)
  | l :: rest =>
      let* q := qc_step q l in
      let* h := (if q_begin q then Ok None else act_header_line rf up ctx f prev_empty l) in
      match h with
      | Some (st', f') =>
          let* c := act_finish ctx st in
          act_loop rf up ctx q f' (l_empty l) st' preamble (done ++ c) rest
      | None =>
          let '(st', preamble') :=
            match st with
            | AsPreamble => (AsPreamble, append_to l preamble)
            | AsArticle p => (AsArticle (ap_feed p l), preamble)
            | AsStruct p => (AsStruct (sp_feed p l), preamble)
            | AsSubtitle p => (AsSubtitle (tp_feed p l), preamble)
            end in
          act_loop rf up ctx q f (l_empty l) st' preamble' done rest
      end
  end.
(** act.rs:120-132 subtitles longer than 1500 bytes *)
Definition title_fits (c : act_child) : bool :=
  match c with ChSubtitle s => (utf8_len (st_title s) <=? 1500)%N | _ => true end.
(** act.rs:47-135 parse_complex_body *)
Definition parse_complex_body (rf : str -> option Z) (up : char -> bool) (ctx : pctx) (lines : list line)
  : outcome (str * list act_child) :=
  let* (sp, done) := act_loop rf up ctx qc_default af_new true AsPreamble [] [] lines in
  let '(st, preamble) := sp in
  let* c := (match st with AsPreamble => Err | _ => act_finish ctx st end) in
  let* _ := ensure (is_full ctx || is_empty preamble) in
  let* _ := ensure (forallb title_fits (done ++ c)) in
  Ok (preamble, done ++ c).
(** act.rs:29-39 parse_act_structure *)
Definition parse_act_structure (rf : str -> option Z) (up : char -> bool) (raw : act_raw) : outcome act :=
  let* (preamble, children) := parse_complex_body rf up FullAct (ar_body raw) in
  Ok (mkActS (ar_id raw) (ar_subject raw) preamble (ar_date raw) [] children).

(** ** src/parser/structure/block_amendment.rs *)
(** block_amendment.rs:183-201 convert_articles; [lines[0]] panics on an empty list *)
Fixpoint ca_loop (f : article_factory) (p : article_parser) (done : list act_child) (ls : list line)
  : outcome (list act_child) :=
  match ls with
  | [] => let* a := ap_finish BlockAm p in Ok (done ++ [ChArticle a])
  | l :: ls' =>
      match try_article BlockAm f None l with
      | Ok (f', p') => let* a := ap_finish BlockAm p in ca_loop f' p' (done ++ [ChArticle a]) ls'
      | Err => ca_loop f (ap_feed p l) done ls'
      | Panic => Panic
      end
  end.
Definition convert_articles (first : article_id) (ls : list line) : outcome (list act_child) :=
  match ls with
  | [] => Panic
  | l :: ls' =>
      let* (f, p) := try_article BlockAm af_new (Some first) l in
      ca_loop f p [] ls'
  end.
(** block_amendment.rs:235-257 convert_title_only_se *)
Definition convert_title_only_se (rf : str -> option Z) (i : numeric) (ty : se_type) (ls : list line) : outcome act_child :=
  match ls with
  | [] => Panic
  | l :: ls' =>
      let* h := try_se rf ty l in
      let p := match h with Some p => p | None => sp_feed (mkSP i [] ty) l end in
      Ok (ChStruct (sp_finish (fold_left sp_feed ls' p)))
  end.
(** block_amendment.rs:259-271 convert_subtitle_only_se *)
Definition convert_subtitle_only_se (up : char -> bool) (ls : list line) : outcome act_child :=
  match ls with
  | [] => Panic
  | l :: ls' =>
      let* h := try_subtitle up BlockAm true l in
      let* p := ok_or h in
      Ok (ChSubtitle (tp_finish (fold_left tp_feed ls' p)))
  end.
(** block_amendment.rs:203-233 convert_title_only_block_amendment *)
Definition convert_title_only (rf : str -> option Z) (up : char -> bool) (pos : struct_ref) (ls : list line)
  : outcome (list act_child) :=
  let* r :=
    match sr_elem pos with
    | SePart i => convert_title_only_se rf i (TPart false) ls
    | SeTitle i => convert_title_only_se rf i TTitle ls
    | SeChapter i => convert_title_only_se rf i TChapter ls
    | SeSubtitleId _ | SeSubtitleTitle _ | SeSubtitleAfterArticle _ | SeSubtitleBeforeArticle _
    | SeSubtitleBeforeArticleInclusive _ => convert_subtitle_only_se up ls
    | SeSubtitleUnknown | SeSubtitleRange _ | SeArticle _ => Err
    end in
  Ok [r].
(** block_amendment.rs:111-123 convert_structural_block_amendment *)
Definition convert_structural (rf : str -> option Z) (up : char -> bool) (pos : struct_ref) (ls : list line)
  : outcome (list act_child) :=
  match sr_elem pos with
  | SeArticle r => convert_articles (r_start r) ls
  | _ =>
      if sr_title_only pos then convert_title_only rf up pos ls
      else let* r := parse_complex_body rf up BlockAm ls in Ok (snd r)
  end.
(** block_amendment.rs:132-155 the paragraph case: a leading article header is cut off *)
Definition trim_article_header (a : article_id) (ls : list line) : outcome (list line) :=
  let h := article_show a ++ lit ". § " in
  match ls with
  | l :: ls' => if starts_with h (content l) then let* l' := slice_bytes l (utf8_len h) None in Ok (l' :: ls') else Ok ls
  | [] => Panic
  end.
(** block_amendment.rs:125-181 convert_simple_block_amendment, with BA_PARSE_PARAMS (273-277) *)
Definition convert_simple (pos : reference) (ls : list line) : outcome (ba_children_of paragraph) :=
  let* _ := ensure (negb (is_empty ls)) in
  match get_last_part pos with
  | PartParagraph p =>
      let* a := ok_or (f_article pos) in
      let* ls := trim_article_header (r_start a) ls in
      let* r := extract_paragraphs BlockAm false false (Some (Some (r_start p))) ls in
      Ok (BcParagraph (em_elems r))
  | PartPoint (PtNum p) =>
      let* r := extract_num_points BlockAm false false (Some (r_start p)) ls in Ok (BcNum (em_elems r))
  | PartPoint (PtAlpha p) =>
      let* r := extract_alpha_points BlockAm false false (Some (r_start p)) ls in Ok (BcAlpha (em_elems r))
  | PartSubpoint (SpNum p) =>
      let* r := extract_num_subpoints BlockAm false false (Some (r_start p)) ls in Ok (BcNumSub (em_elems r))
  | PartSubpoint (SpAlpha p) =>
      let* r := extract_alpha_subpoints (p_prefix (r_start p)) BlockAm false false (Some (r_start p)) ls in
      Ok (BcAlphaSub (em_elems r))
  | PartArticle _ | PartAct _ | PartEmpty => Err
  end.
(** block_amendment.rs:64-109 Paragraph::convert_block_amendments: the paragraph after the call and the result.
    [mem::take] empties the intro before the conversion is tried. *)
Definition set_body {I C} (s : sae I C) (b : sae_body C) : sae I C := mkSae (s_id s) b (s_si s) (s_change s).
Definition convert_paragraph (rf : str -> option Z) (up : char -> bool) (p : paragraph) : paragraph * outcome unit :=
  match s_body p with
  | BChildren intro (PcQuoted [qb]) wrap =>
      let taken := set_body p (BChildren intro (PcQuoted [mkQb None (qb_lines qb) (qb_wrap qb)]) wrap) in
      match si_phrase (s_si p) with
      | Some (PhBlock ba) =>
          match convert_simple (ba_position ba) (qb_lines qb) with
          | Ok c => (set_body p (BChildren intro (PcBlock (mkBlock (qb_intro qb) c (qb_wrap qb))) wrap), Ok tt)
          | Err => (taken, Err)
          | Panic => (taken, Panic)
          end
      | Some (PhStructural sba) =>
          match convert_structural rf up (sba_position sba) (qb_lines qb) with
          | Ok c => (set_body p (BChildren intro (PcStruct (mkSBlock (qb_intro qb) c (qb_wrap qb))) wrap), Ok tt)
          | Err => (taken, Err)
          | Panic => (taken, Panic)
          end
      | _ => (p, Ok tt)
      end
  | _ => (p, Ok tt)
  end.
(** [iter_mut().try_for_each(f)]: the list after the call and the result; stops at the first failure *)
Fixpoint try_each {A} (f : A -> A * outcome unit) (l : list A) : list A * outcome unit :=
  match l with
  | [] => ([], Ok tt)
  | a :: l' =>
      let '(a', r) := f a in
      match r with
      | Ok _ => let '(l'', r') := try_each f l' in (a' :: l'', r')
      | _ => (a' :: l', r)
      end
  end.
(** block_amendment.rs:44-62 *)
Definition convert_article (rf : str -> option Z) (up : char -> bool) (a : article) : article * outcome unit :=
  let '(c, r) := try_each (convert_paragraph rf up) (ar_children a) in
  (mkArticle (ar_ident a) (ar_title a) c (ar_change a), r).
Definition convert_child (rf : str -> option Z) (up : char -> bool) (c : act_child) : act_child * outcome unit :=
  match c with
  | ChArticle a => let '(a', r) := convert_article rf up a in (ChArticle a', r)
  | _ => (c, Ok tt)
  end.
Definition convert_act (rf : str -> option Z) (up : char -> bool) (a : act) : act * outcome unit :=
  let '(c, r) := try_each (convert_child rf up) (ac_children a) in
  (mkActS (ac_id a) (ac_subject a) (ac_preamble a) (ac_date a) (ac_abbrevs a) c, r).
