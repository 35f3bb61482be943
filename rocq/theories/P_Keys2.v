(** Reading the keys of a terminfo entry. *)
From Coq Require Import String.
From Verif Require Import Base M_Utf8 S_Utf8 M_Geom M_Seq S_Seq M_Signal M_Util M_Input S_Input P_Input M_Writer
  M_Prepare M_Reader S_Prepare S_Reader P_Prepare P_Reader P_Reader2 M_Keys S_Keys P_Keys.
Local Open Scope N_scope.

Lemma read_described db name : exists m, terminal_sequences (fun c => db (cap_name c)) name = Some m /\
  forall C t s k q rest,
    sends db k q -> q <> [] -> is_ascii q -> nothing_longer db q (q ++ rest) ->
    (is_xterm name = true -> ~ is_prefix XTERM_MOUSE_INTRO (q ++ rest)) ->
    inbuf s = q ++ rest ->
    read_event C m t s = Ret (with_inbuf rest (incap s) s) (Some (EKey k)).
Proof.
  destruct (terminal_keys db name) as (m & E & Hm & Hl). exists m. split; [exact E|].
  intros C t s k q rest H1 H2 H3 H4 H5 Hi.
  exact (read_buffered_at C m t s q rest _ Hi
    (eq_trans (f_equal (fun b => peek_event b m) Hi) (peek_key m (q ++ rest) q k Hm (Hl k q rest H1 H2 H3 H4 H5)))).
Qed.
