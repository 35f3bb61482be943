(** Specification vocabulary for attributes and text (C94). *)
From Verif Require Import Base M_Utf8 M_Geom M_Attr M_Buf M_Writer S_Tty S_Writer.

(** What a terminal shows of some output: the texts printed, each with the attributes
    in force when it was printed.  The rest of the output changes nothing on the
    terminal but the attributes for further text. *)
Inductive tells (K : tty) : tstate K -> bytes -> list (list N * attrs) -> Prop :=
| tells_end t : tells K t [] []
| tells_text t v s y log :
    look K t = Some v -> tells K (feed K t (utf8s s)) y log ->
    tells K t (utf8s s ++ y) ((s, vattrs v) :: log)
| tells_attrs t v a x y log :
    look K t = Some v -> look K (feed K t x) = Some (set_vattrs a v) ->
    tells K (feed K t x) y log ->
    tells K t (x ++ y) log.

(** The texts a program writes, each with the attributes it has asked for, if [a] was
    asked for before. *)
Fixpoint text_log (a : attrs) (ops : list wop) : list (list N * attrs) :=
  match ops with
  | [] => []
  | OWriteChar c :: ops => ([c], a) :: text_log a ops
  | OWriteStr s :: ops => (s, a) :: text_log a ops
  | OWriteStyled b s :: ops => (s, b) :: text_log no_attrs ops
  | o :: ops => text_log (request a o) ops
  end.

(** Operations that set attributes or write text. *)
Definition styled_op (E : env) (o : wop) : Prop :=
  match o with
  | OWriteChar c => texty E c
  | OWriteStr s | OWriteStyled _ s => Forall (texty E) s
  | _ => attr_op o
  end.

(** Operations that leave no attributes behind. *)
Definition tidy (ops : list wop) : Prop := fold_left request ops no_attrs = no_attrs.

(** What the terminal of [C] is able to show. *)
Definition as_shown (C : tcfg) (log : list (list N * attrs)) : list (list N * attrs) :=
  map (fun p => (fst p, shown_attrs C (snd p))) log.

(** What thread [i] showed. *)
Definition by_thread {A} (i : nat) (l : list (nat * A)) : list A :=
  map snd (filter (fun b => fst b =? i) l).

(** Messages for the examples: one that leaves bold on, one without attributes. *)
Definition untidy_a : list wop := [OAddStyle BOLD; OWriteStr [97%N]].
Definition plain_b : list wop := [OWriteStr [98%N]].
