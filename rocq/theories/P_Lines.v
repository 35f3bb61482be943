(** Proofs about lines of styled text (C141). *)
From Coq Require Import String.
From Verif Require Import Base M_Utf8 S_Utf8 M_Geom S_Geom M_Attr M_Buf S_Buf M_Writer S_Tty S_Writer M_Api S_Api P_Api M_Lines S_Lines.

Lemma nth_firstn {A} p : forall (l : list A) j, j < p -> nth_error (firstn p l) j = nth_error l j.
Proof. induction p as [|p IH]; intros [|x l] [|j] H; cbn; try reflexivity; try lia. apply IH. lia. Qed.
Lemma nth_skipn {A} p : forall (l : list A) j, nth_error (skipn p l) j = nth_error l (p + j).
Proof. induction p as [|p IH]; intros [|x l] j; cbn [skipn plus]; try reflexivity; [now destruct j|apply IH]. Qed.
Lemma nth_same {A} : forall (l r : list A), (forall j, nth_error l j = nth_error r j) -> l = r.
Proof.
  induction l as [|x l IH]; intros [|y r] H; [reflexivity|discriminate (H 0)|discriminate (H 0)|].
  f_equal; [now injection (H 0)|]. apply IH. intros j. apply (H (S j)).
Qed.

Lemma splice_nth {A} p (x l : list A) j : p + length x <= length l ->
  nth_error (splice p x l) j = if j <? p then nth_error l j else if j <? p + length x then nth_error x (j - p) else nth_error l j.
Proof.
  intros H. unfold splice. destruct (Nat.ltb_spec j p).
  - rewrite nth_error_app1 by (rewrite firstn_length; lia). now rewrite nth_firstn by lia.
  - rewrite nth_error_app2 by (rewrite firstn_length; lia). rewrite firstn_length. replace (Nat.min p (length l)) with p by lia.
    destruct (Nat.ltb_spec j (p + length x)).
    + now rewrite nth_error_app1 by lia.
    + rewrite nth_error_app2 by lia. rewrite nth_skipn. f_equal. lia.
Qed.
Lemma splice_length {A} p (x l : list A) : p + length x <= length l -> length (splice p x l) = length l.
Proof. intros H. unfold splice. rewrite !app_length, firstn_length, skipn_length. lia. Qed.
Lemma splice_splice {A} p (x y l : list A) : p + length x + length y <= length l ->
  splice (p + length x) y (splice p x l) = splice p (x ++ y) l.
Proof.
  intros H. apply nth_same. intros j. rewrite splice_nth by (rewrite splice_length; lia). rewrite !splice_nth by (rewrite ?app_length; lia).
  rewrite app_length. destruct (Nat.ltb_spec j p), (Nat.ltb_spec j (p + length x)), (Nat.ltb_spec j (p + length x + length y)), (Nat.ltb_spec j (p + (length x + length y)));
    try lia; try reflexivity.
  - now rewrite nth_error_app1 by lia.
  - rewrite nth_error_app2 by lia. f_equal. lia.
Qed.
Lemma splice_nil {A} p (l : list A) : splice p [] l = l.
Proof. unfold splice. cbn. rewrite Nat.add_0_r. apply firstn_skipn. Qed.

(** The cells have come at the cursor, nothing else has changed (but the attributes in force,
    and whether the cursor is visible). *)
Definition laid (x : list vcell) (v v' : view) : Prop :=
  vsize v' = vsize v /\ vcur v' = Cursor (line (vcur v)) (column (vcur v) + length x) /\
  vcells v' = splice (cell_no (vsize v) (vcur v)) x (vcells v).

Lemma space_fits n v : view_ok v -> space n v -> cell_no (vsize v) (vcur v) + n <= length (vcells v).
Proof. intros H (H1 & H2 & _). rewrite H. unfold cell_no, total. nia. Qed.
Lemma laid_nil v a b : laid [] v (View (vsize v) (vcells v) (vcur v) a b).
Proof. unfold laid. cbn. rewrite splice_nil, Nat.add_0_r. destruct (vcur v). auto. Qed.
Lemma laid_ok x v v' : view_ok v -> space (length x) v -> laid x v v' -> view_ok v'.
Proof. intros H Hs (H1 & _ & H3). unfold view_ok. rewrite H1, H3, splice_length by now apply space_fits. exact H. Qed.
Lemma space_less n m v : space (n + m) v -> space n v.
Proof. intros (H1 & H2 & H3). split; [exact H1|]. split; [lia|]. intros j Hj. apply H3. lia. Qed.
Lemma laid_space x n v v' : view_ok v -> space (length x + n) v -> laid x v v' -> space n v'.
Proof.
  intros Hv Hs (H1 & H2 & H3). pose proof (space_fits _ _ Hv (space_less _ _ _ Hs)) as Hf. destruct Hs as (S1 & S2 & S3).
  unfold space. rewrite H1, H2, H3. cbn [line column]. split; [exact S1|]. split; [lia|]. intros j Hj. unfold cell_no in *. cbn [line column] in Hj.
  rewrite splice_nth by exact Hf. destruct (Nat.ltb_spec j (line (vcur v) * columns (vsize v) + column (vcur v))); [lia|].
  destruct (Nat.ltb_spec j (line (vcur v) * columns (vsize v) + column (vcur v) + length x)); [lia|]. apply S3. lia.
Qed.
Lemma laid_app x y v v1 v2 : view_ok v -> space (length x + length y) v -> laid x v v1 -> laid y v1 v2 -> laid (x ++ y) v v2.
Proof.
  intros Hv Hs (A1 & A2 & A3) (B1 & B2 & B3). pose proof (space_fits _ _ Hv Hs) as Hf. split; [congruence|]. split.
  - rewrite B2, A2. cbn [line column]. rewrite app_length. f_equal. lia.
  - rewrite B3, A1, A2, A3. unfold cell_no in *. cbn [line column]. rewrite Nat.add_assoc. apply splice_splice. lia.
Qed.
Lemma laid_attrs x v v' a : laid x (set_vattrs a v) v' <-> laid x v v'.
Proof. reflexivity. Qed.
Lemma laid_attrs' x v v' a : laid x v v' -> laid x v (set_vattrs a v').
Proof. intros H. exact H. Qed.

Lemma glyph_laid E c v v' : letter E c -> view_ok v -> space (length (glyphs E (vattrs v) [c])) v -> types E c v v' ->
  laid (glyphs E (vattrs v) [c]) v v' /\ vattrs v' = vattrs v /\ vvis v' = vvis v.
Proof.
  intros [_ Hp] Hv Hs (Hk & Ht & _ & _). pose proof (space_fits _ _ Hv Hs) as Hf. pose proof Hs as (S1 & S2 & S3).
  destruct Hk as (K1 & K2 & K3 & K4). split; [|auto].
  assert (Hw : exists w, cwidth E c = Some w /\ length (glyphs E (vattrs v) [c]) = w /\ (w = 1 \/ w = 2)).
  { destruct Hp as (_ & _ & _ & _ & [Hw|Hw]); rewrite Hw; [exists 1|exists 2]; cbn; rewrite Hw; auto. }
  destruct Hw as (w & Hw & Hl & Hw2). rewrite Hl in *.
  destruct (Ht w Hw Hp) as (_ & _ & _ & _ & P1 & P2 & P3 & P4 & P5 & P6); [split; [exact S1|split; [exact S2|apply S3; lia]]|].
  split; [exact K1|]. split; [now rewrite Hl|]. apply nth_same. intros j. rewrite splice_nth by lia. rewrite Hl. cbn zeta in *.
  specialize (P5 ltac:(apply S3; lia)).
  set (i := cell_no (vsize v) (vcur v)) in *. destruct (Nat.ltb_spec j i); [apply P4; lia|]. destruct (Nat.ltb_spec j (i + w)).
  - cbn [glyphs]. rewrite Hw. destruct Hw2 as [->| ->].
    + replace j with i by lia. rewrite Nat.sub_diag. exact P2.
    + destruct (Nat.eq_dec j i) as [->|]; [rewrite Nat.sub_diag; exact P2|]. replace j with (i + 1) by lia. replace (i + 1 - i) with 1 by lia. now apply P3.
  - destruct (Nat.eq_dec j (i + w)) as [->|]; [exact P5|]. apply P4. lia.
Qed.
Lemma glyphs_app E a s t : glyphs E a (s ++ t) = glyphs E a s ++ glyphs E a t.
Proof. induction s as [|c s IH]; [reflexivity|]. cbn [app glyphs]. rewrite IH. now rewrite app_assoc. Qed.
Lemma prints_laid E s : forall v v', Forall (letter E) s -> view_ok v -> space (length (glyphs E (vattrs v) s)) v -> prints E s v v' ->
  laid (glyphs E (vattrs v) s) v v' /\ vattrs v' = vattrs v /\ vvis v' = vvis v.
Proof.
  induction s as [|c s IH]; intros v v' Hl Hv Hs H; inversion H; subst.
  - split; [|auto]. destruct v'. apply laid_nil.
  - inversion Hl; subst. change (glyphs E (vattrs v) (c :: s)) with (glyphs E (vattrs v) ([c] ++ s)) in *. rewrite glyphs_app in *.
    rewrite app_length in Hs. destruct (glyph_laid E c v v1) as (A1 & A2 & A3); eauto using space_less.
    destruct (IH v1 v') as (B1 & B2 & B3); auto.
    + eapply laid_ok; eauto using space_less.
    + rewrite A2. eapply laid_space; eauto.
    + rewrite A2 in B1. split; [eapply laid_app; eauto|]. split; congruence.
Qed.

Lemma effect_laid E m v v' : line_call E m -> view_ok v -> space (length (lettering E m (vattrs v))) v -> effect E m v v' ->
  laid (lettering E m (vattrs v)) v v' /\ vattrs v' = asked m (vattrs v).
Proof.
  intros Hm Hv Hs H.
  assert (L : forall a b, laid [] v (View (vsize v) (vcells v) (vcur v) a b)) by (intros; apply laid_nil).
  destruct m as [| | | | | | | | |[]| | |[]| | | | | | | | |f b st text|c|s|ps]; cbn [line_call] in Hm; try contradiction; cbn [effect lettering asked] in *;
    try (subst v'; split; [apply L|reflexivity]).
  - subst v'. split; [destruct v; apply L|reflexivity].
  - destruct H as (v2 & H & ->). destruct Hm as [_ Hm].
    destruct (prints_laid E text (set_vattrs (Attrs f b match st with Some s => s | None => 0%N end) v) v2) as (A1 & A2 & A3); auto.
  - destruct (glyph_laid E c v v') as (A1 & A2 & A3); auto.
  - destruct (prints_laid E s v v') as (A1 & A2 & A3); auto.
  - destruct (prints_laid E (concat ps) v v') as (A1 & A2 & A3); auto. now apply Forall_concat.
Qed.

Lemma effects_laid E cs : forall v v', Forall (on_api (line_call E)) cs -> view_ok v ->
  let ms := map (fun c => match c with OnGuard m | OnTerminal m => m end) cs in
  space (length (row E ms (vattrs v))) v -> effects E cs v v' ->
  laid (row E ms (vattrs v)) v v' /\ vattrs v' = asked_at_end ms (vattrs v).
Proof.
  induction cs as [|c cs IH]; intros v v' Hc Hv ms Hs H; subst ms; inversion H; subst.
  - split; [|reflexivity]. destruct v'. apply laid_nil.
  - inversion Hc as [|? ? C1 C2]; subst. cbn [map row] in *. set (m0 := match c with OnGuard m | OnTerminal m => m end) in *.
    assert (Em : m0 = m) by (subst m0; match goal with H0 : _ \/ _ |- _ => destruct H0; subst c; reflexivity end).
    assert (Cm : line_call E m) by (rewrite <- Em; subst m0; destruct c; exact C1). rewrite Em in *. clearbody m0. rewrite app_length in Hs.
    destruct (effect_laid E m v v1) as (A1 & A2); eauto using space_less.
    destruct (IH v1 v') as (B1 & B2); auto.
    + eapply laid_ok; eauto using space_less.
    + rewrite A2. eapply laid_space; eauto.
    + rewrite A2 in B1, B2. split; [eapply laid_app; eauto|]. exact B2.
Qed.

Lemma letter_texty E c : letter E c -> texty E c.
Proof. intros [H1 H2]. split; auto. Qed.
Lemma line_sensible E m : line_call E m -> sensible E m.
Proof.
  destruct m as [| | | | | | | | |m| | |[]| | | | | | | | |f b st text|c|s|ps]; cbn; auto; try contradiction.
  - intros [H1 H2]. split; [exact H1|]. eapply Forall_impl; [|exact H2]. apply letter_texty.
  - apply letter_texty.
  - intros H. eapply Forall_impl; [|exact H]. apply letter_texty.
  - intros H. eapply Forall_impl; [|exact H]. cbn. intros l Hl. eapply Forall_impl; [|exact Hl]. apply letter_texty.
Qed.

Lemma line_shown E C K t0 cs : implements E C K -> full_caps C ->
  forall w w' v, Forall (on_api (line_call E)) cs ->
  whole_writes (script w) -> style_ok (sty (wat w)) ->
  look K (feed K t0 (stream w)) = Some v -> vattrs v = wat w ->
  let ms := map (fun c => match c with OnGuard m | OnTerminal m => m end) cs in
  let x := row E ms (vattrs v) in
  space (length x) v -> api_run C cs w = Some w' ->
  exists v', look K (feed K t0 (stream w')) = Some v' /\ vsize v' = vsize v /\ vattrs v' = asked_at_end ms (vattrs v) /\
    vcur v' = Cursor (line (vcur v)) (column (vcur v) + length x) /\
    vcells v' = splice (cell_no (vsize v) (vcur v)) x (vcells v).
Proof.
  intros HK Hc w w' v Hm Hw Hs Hl Hv ms x Hsp R.
  destruct (api_does E C K t0 cs HK Hc w w' v) as (v' & H1 & H2 & _); auto.
  { eapply Forall_impl; [|exact Hm]. intros [m|m]; cbn; apply line_sensible. }
  destruct (effects_laid E cs v v' Hm) as ((L1 & L2 & L3) & L4); auto.
  - exact (look_ok E C K HK _ _ Hl).
  - exists v'. auto 10.
Qed.
Lemma terminal_run_arrives C ms : forall w w', perfect (script w) -> obuf w = [] -> api_run C (map OnTerminal ms) w = Some w' -> obuf w' = [] /\ perfect (script w').
Proof.
  induction ms as [|m ms IH]; intros w w' Hp Ho H; cbn [map api_run] in H; [injection H as <-; auto|].
  destruct (api_run1 C (OnTerminal m) w) as [w1 u| | |] eqn:E1; try discriminate.
  destruct (terminal_arrives C m w w1 u Hp Ho E1) as (A1 & A2 & _). eauto.
Qed.

Lemma glyphs_plain E a s : ascii_plain E -> forallb (fun c => (32 <=? c) && (c <? 127))%N s = true -> glyphs E a s = map (fun c => VC [c] a) s.
Proof.
  intros HE. induction s as [|c s IH]; cbn [forallb glyphs map]; [reflexivity|]. intros H. apply andb_prop in H. destruct H as [H1 H2].
  destruct (HE c) as [_ Hw]; [lia|]. rewrite Hw, IH by exact H2. reflexivity.
Qed.
Lemma plain_letters E s : ascii_plain E -> forallb (fun c => (32 <=? c) && (c <? 127))%N s = true -> Forall (letter E) s.
Proof. intros HE H. rewrite forallb_forall in H. apply Forall_forall. intros c Hc. apply HE. specialize (H c Hc). lia. Qed.

(** A list of calls of which every text is of ASCII characters. *)
Definition ascii_texts (m : tmethod) : bool :=
  match m with
  | TWriteChar c => forallb (fun c => (32 <=? c) && (c <? 127))%N [c]
  | TWriteStr s => forallb (fun c => (32 <=? c) && (c <? 127))%N s
  | TWriteFmt pieces => forallb (forallb (fun c => (32 <=? c) && (c <? 127))%N) pieces
  | TWriteStyled _ _ s text => forallb (fun c => (32 <=? c) && (c <? 127))%N text && match s with Some s => (s <? 16)%N | None => true end
  | TAddStyle s | TRemoveStyle s | TSetStyle (Some s) | TSetTheme _ _ s => (s <? 16)%N
  | TClearScreen | TClearToLineEnd | TClearToScreenEnd | TMoveUp _ | TMoveDown _ | TMoveLeft _ | TMoveRight _ | TMoveToFirstColumn => false
  | _ => true
  end.
Lemma ascii_call E m : ascii_plain E -> ascii_texts m = true -> line_call E m.
Proof.
  intros HE. destruct m as [| | | | | | | | |m| | |[]| | | | | | | | |f b st text|c|s|ps]; cbn [ascii_texts line_call]; try discriminate; intros H;
    try exact Logic.I; try (unfold style_ok; lia).
  - apply andb_prop in H. destruct H as [H1 H2]. split; [destruct st; [unfold style_ok; lia|exact Logic.I]|now apply plain_letters].
  - apply (plain_letters E [c] HE) in H. now inversion H.
  - now apply plain_letters.
  - rewrite forallb_forall in H. apply Forall_forall. intros s Hs. apply plain_letters; auto.
Qed.
Lemma ascii_lettering E m a : ascii_plain E -> ascii_texts m = true -> lettering E m a =
  match m with
  | TWriteChar c => [VC [c] a]
  | TWriteStr s => map (fun c => VC [c] a) s
  | TWriteFmt pieces => map (fun c => VC [c] a) (concat pieces)
  | TWriteStyled f b s text => map (fun c => VC [c] (Attrs f b (match s with Some s => s | None => 0%N end))) text
  | _ => []
  end.
Proof.
  intros HE. destruct m; cbn [ascii_texts lettering]; try reflexivity; intros H.
  - apply andb_prop in H. destruct H as [H _]. now rewrite glyphs_plain.
  - now rewrite glyphs_plain.
  - now rewrite glyphs_plain.
  - rewrite glyphs_plain; [reflexivity|exact HE|]. rewrite forallb_forall in *. intros c Hc. apply in_concat in Hc. destruct Hc as (s & H1 & H2).
    specialize (H s H1). rewrite forallb_forall in H. auto.
Qed.

Lemma program_shown E C K t0 ms x a' : implements E C K -> full_caps C -> ascii_plain E ->
  forallb ascii_texts ms = true -> row E ms no_attrs = x -> asked_at_end ms no_attrs = a' ->
  forall w w' v, perfect (script w) -> obuf w = [] -> wat w = no_attrs ->
  look K (feed K t0 (dev w)) = Some v -> vattrs v = no_attrs -> space (length x) v ->
  api_run C (map OnTerminal ms) w = Some w' ->
  exists v', look K (feed K t0 (dev w')) = Some v' /\ vsize v' = vsize v /\ vattrs v' = a' /\
    vcur v' = Cursor (line (vcur v)) (column (vcur v) + length x) /\
    vcells v' = splice (cell_no (vsize v) (vcur v)) x (vcells v).
Proof.
  intros HK Hc HE Ha <- <- w w' v Hp Ho Hat Hl Hv Hs R. destruct (terminal_run_arrives C ms w w' Hp Ho R) as (Ho' & _).
  assert (Sw : stream w = dev w) by (unfold stream; now rewrite Ho, app_nil_r).
  assert (Sw' : stream w' = dev w') by (unfold stream; now rewrite Ho', app_nil_r). rewrite <- Sw in Hl. rewrite <- Sw'.
  assert (Em : map (fun c => match c with OnGuard m | OnTerminal m => m end) (map OnTerminal ms) = ms) by (rewrite map_map; apply map_id).
  pose proof (line_shown E C K t0 (map OnTerminal ms) HK Hc w w' v) as H. cbv zeta in H. rewrite Em, Hv in H. apply H; auto.
  - apply Forall_forall. intros c Hi. apply in_map_iff in Hi. destruct Hi as (m & <- & Hi). apply (ascii_call E m HE).
    rewrite forallb_forall in Ha. auto.
  - now apply P_Writer.perfect_whole.
  - rewrite Hat. reflexivity.
Qed.

Ltac rows HE := cbn [row]; repeat (rewrite ascii_lettering; [|exact HE|reflexivity]); vm_compute; reflexivity.
Lemma attribute_row E : ascii_plain E -> row E attribute_test no_attrs = in_cells attribute_texts.
Proof. intros HE. unfold attribute_test. rows HE. Qed.
Lemma error_row E : ascii_plain E -> row E error_line no_attrs = in_cells [("error"%string, Attrs (Some Red) None BOLD); (": error message"%string, no_attrs)].
Proof. intros HE. unfold error_line. rows HE. Qed.
Lemma help_row E : ascii_plain E -> row E help_line no_attrs = in_cells [("help"%string, Attrs (Some Green) None BOLD); (": help message"%string, no_attrs)].
Proof. intros HE. unfold help_line. rows HE. Qed.

Lemma examples_shown E C K t0 : implements E C K -> full_caps C -> ascii_plain E ->
  forall ms l w w' v, In (ms, l) example_lines -> perfect (script w) -> obuf w = [] -> wat w = no_attrs ->
  look K (feed K t0 (dev w)) = Some v -> vattrs v = no_attrs -> space (length (in_cells l)) v ->
  api_run C (map OnTerminal ms) w = Some w' ->
  exists v', look K (feed K t0 (dev w')) = Some v' /\ vsize v' = vsize v /\ vattrs v' = no_attrs /\
    vcur v' = Cursor (line (vcur v)) (column (vcur v) + length (in_cells l)) /\
    vcells v' = splice (cell_no (vsize v) (vcur v)) (in_cells l) (vcells v).
Proof.
  intros HK Hc HE ms l w w' v Hi. intros. destruct Hi as [Hi|[Hi|[Hi|[]]]]; injection Hi as <- <-.
  - eapply (program_shown E C K t0 attribute_test); eauto using attribute_row.
  - eapply (program_shown E C K t0 error_line); eauto using error_row.
  - eapply (program_shown E C K t0 help_line); eauto using help_row.
Qed.
