(** Property theorems for the macros (C55). *)
From Coq Require Import String.
From Verif Require Import Base M_Attr M_Geom M_Buf M_Writer M_Screen M_Macros S_Macros P_Macros.
Local Open Scope string_scope.

(** C55: exactly the documented elements are accepted. *)
Theorem C55_accepts :
  forall (U : Type) (C : tcfg) (l : list (tree U)) (st : U * wst),
  term_write_guard U C l st = None <-> l = [] \/ ~ documented U l.
Proof. exact rejects_facts. Qed.
Print Assumptions C55_accepts.

(** C55: on a terminal guard the elements are performed left to right, each argument
    being evaluated just before, and the first error ends it and is the result. *)
Theorem C55_terminal_guard :
  forall (U : Type) (C : tcfg) (l : list (tree U)) (st : U * wst) (r : out (U * wst) werr unit),
  l <> [] -> documented U l ->
  (term_write_guard U C l st = Some r <-> terminal_run U C l st r).
Proof. exact guard_facts. Qed.
Print Assumptions C55_terminal_guard.

(** C55: on a [Terminal] the same happens under one lock, which is given up (and the
    output sent) only after the last element; the result is the same. *)
Theorem C55_terminal :
  forall (U : Type) (C : tcfg) (l : list (tree U)) (st : U * wst),
  l <> [] -> documented U l ->
  exists r, terminal_run U C l st r /\ term_write_terminal U C l st = Some (unlocked U r).
Proof. exact terminal_facts. Qed.
Print Assumptions C55_terminal.

(** C55: [term_writeln!] is the same followed by a newline, also without elements. *)
Theorem C55_writeln :
  forall (U : Type) (C : tcfg) (l : list (tree U)) (st : U * wst) (r : out (U * wst) werr unit),
  documented U l ->
  (term_write_guard U C (writeln_trees U l) st = Some r <->
   terminal_run U C (l ++ [Literal [10%N]]) st r).
Proof. exact writeln_facts. Qed.
Print Assumptions C55_writeln.

(** C55: on a screen guard all elements are performed, left to right; likewise
    [term_writeln!]. *)
Theorem C55_screen_guard :
  forall (U : Type) (E : env) (l : list (tree U)) (st : U * sbuf) (r : pan (U * sbuf)),
  documented U l ->
  (screen_write_guard U E (writeln_trees U l) st = Some r <->
   screen_run U E (l ++ [Literal [10%N]]) st r) /\
  (l <> [] -> screen_write_guard U E l st = Some r <-> screen_run U E l st r).
Proof. exact screen_guard_facts. Qed.
Print Assumptions C55_screen_guard.

(** C55: on a [Screen] the same happens under one lock; giving it up refreshes the
    screen once. *)
Theorem C55_screen :
  forall (U : Type) (E : env) (C : tcfg) (l : list (tree U)) (u : U) (s : scr) (u' : U) (b : sbuf),
  l <> [] -> documented U l -> screen_run U E l (u, sb s) (Val (u', b)) ->
  screen_write_screen U E C l (u, s) =
  Some (match s_guard_drop E C (with_sb b s) with
        | Ret s' _ => Ret (u', s') tt
        | Fail s' e => Fail (u', s') e
        | Panic => Panic
        | Blocked => Blocked
        end).
Proof. exact screen_session_facts. Qed.
Print Assumptions C55_screen.

(** The caller counts how often its expressions are evaluated. *)
Definition tick {A} (a : A) : ex nat A := fun u => (S u, a).
Definition ex_trees : list (tree nat) :=
  [Brackets [Id "red"]; Parens [Colon; Arg (XText (tick (Some [52; 50]%N)))];
   Brackets [Bang; Id "bold"]; Literal [33%N]; Brackets [Id "style"; PlusEquals; Arg (XStyle (tick ITALIC))]].
Definition ex_set_fg : expansion := fun k ps => ((27 :: ps)%N, k, true).
Definition ex_term : tcfg :=
  TCfg (fun c => match c with SetAForeground => Some ex_set_fg | _ => None end) (fun _ n => n) false.

Example C55_documented : documented nat ex_trees /\ ex_trees <> [].
Proof.
  split; [|discriminate].
  repeat constructor; eexists.
  - apply m_color. cbn. tauto.
  - apply m_display.
  - apply m_no_style. cbn. tauto.
  - apply m_literal.
  - apply m_add_style.
Qed.

(** Everything succeeds; the literal fails: the last expression is not evaluated. *)
Example C55_example :
  term_write_terminal nat ex_term ex_trees (0, writer_new 8 [WAll]) =
    Some (Ret (2, W [] 8 (Attrs (Some Red) None ITALIC) 0 [27; 1; 52; 50; 33]%N []) tt) /\
  term_write_guard nat ex_term ex_trees (0, writer_new 4 [WErr 5]) =
    Some (Fail (1, W [27; 1; 52; 50]%N 4 (Attrs (Some Red) None style_empty) 0 [] []) (EOs 5)) /\
  term_write_terminal nat ex_term [Brackets [Id "purple"]] (0, writer_new 8 []) = None.
Proof. vm_compute. auto. Qed.
