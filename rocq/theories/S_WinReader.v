(** Specifications for the input half of the Windows terminal. *)
From Verif Require Import Base M_Geom M_Signal M_Util M_Input M_Buf M_Writer M_Prepare M_Reader M_WinWriter M_WinReader.
Local Open Scope N_scope.

(** ** Mouse *)

(** The buttons by number of their bit in [dwButtonState]. *)
Definition button_no (i : N) : mouse_button :=
  match i with 0 => MLeft | 1 => MRight | 2 => MMiddle | _ => MOther i end.

(** Button [i] is the only (the first) one whose state differs. *)
Definition only_change (p b i : N) : Prop := forall j, N.testbit p j <> N.testbit b j <-> j = i.
Definition first_change (p b i : N) : Prop :=
  N.testbit p i <> N.testbit b i /\ forall j, j < i -> N.testbit p j = N.testbit b j.

(** The wheel: bit 2 of the flags, the horizontal wheel: bit 3; the upper half of the
    button state is the distance, as a signed number. *)
Definition wheel (flags : N) : bool := N.testbit flags 2.
Definition hwheel (flags : N) : bool := N.testbit flags 3.
Definition wheel_up (b : N) : bool := let d := b / 65536 in (0 <? d) && (d <? 32768).

(** What a mouse record says if the buttons held before were [p]: the buttons held after
    it, and the input to report. *)
Inductive says (track : bool) (p : N) : record -> N -> option mouse_input -> Prop :=
| says_wheel : forall pos b ctl fl,
    wheel fl = true ->
    says track p (MouseRec pos b ctl fl) p (Some (if wheel_up b then MWheelUp else MWheelDown))
| says_motion : forall pos ctl fl,
    wheel fl = false -> hwheel fl = false -> p <> 0 \/ track = true ->
    says track p (MouseRec pos p ctl fl) p (Some MMotion)
| says_nothing : forall pos ctl fl,
    wheel fl = false -> hwheel fl = false -> p = 0 -> track = false ->
    says track p (MouseRec pos p ctl fl) p None
| says_press : forall pos b ctl fl i,
    wheel fl = false -> hwheel fl = false -> only_change p b i -> N.testbit b i = true ->
    says track p (MouseRec pos b ctl fl) b (Some (MPressed (button_no i)))
| says_release : forall pos b ctl fl i,
    wheel fl = false -> hwheel fl = false -> only_change p b i -> N.testbit b i = false ->
    says track p (MouseRec pos b ctl fl) b (Some (MReleased (button_no i))).

(** The same for a sequence of records. *)
Inductive says_all (track : bool) : N -> list record -> list (option mouse_input) -> Prop :=
| says_nil : forall p, says_all track p [] []
| says_cons : forall p r p' i rs is,
    says track p r p' i -> says_all track p' rs is -> says_all track p (r :: rs) (i :: is).

(** Position and modifier keys of a record: Alt (either: bits 0 and 1 of the key state),
    Ctrl (either: bits 2 and 3), Shift (bit 4). *)
Definition mods_of (ctl : N) : N :=
  (if N.testbit ctl 0 || N.testbit ctl 1 then 1 else 0) +
  (if N.testbit ctl 2 || N.testbit ctl 3 then 2 else 0) +
  (if N.testbit ctl 4 then 4 else 0).
Definition as_event (r : record) (i : option mouse_input) : option mouse_event :=
  match r, i with
  | MouseRec pos _ ctl _, Some i => Some (MouseEvent (Cursor (Z.to_nat (cY pos)) (Z.to_nat (cX pos))) i (mods_of ctl))
  | _, _ => None
  end.
(** Positions are on the screen buffer; button states are 32 bits. *)
Definition mouse_ok (r : record) : Prop :=
  match r with
  | MouseRec pos b _ _ => (0 <= cX pos < 32768 /\ 0 <= cY pos < 32768)%Z /\ b < 4294967296
  | _ => False
  end.

(** Decoding a sequence of mouse records. *)
Fixpoint run_mouse (E : env) (rs : list record) (rd : wreader) : pan (wreader * list (option mouse_event)) :=
  match rs with
  | [] => Val (rd, [])
  | r :: rs =>
      match win_mouse_event E r rd with
      | Boom => Boom
      | Val (rd, e) => match run_mouse E rs rd with
                       | Boom => Boom
                       | Val (rd, es) => Val (rd, e :: es)
                       end
      end
  end.

(** ** Keys *)

(** Virtual-key codes (winuser.h). *)
Definition vk_table : list (N * key) :=
  [(8, KBackspace); (9, KTab); (13, KEnter); (27, KEscape);
   (33, KPageUp); (34, KPageDown); (35, KEnd); (36, KHome);
   (37, KLeft); (38, KUp); (39, KRight); (40, KDown); (45, KInsert); (46, KDelete);
   (112, KF 1); (113, KF 2); (114, KF 3); (115, KF 4); (116, KF 5); (117, KF 6);
   (118, KF 7); (119, KF 8); (120, KF 9); (121, KF 10); (122, KF 11); (123, KF 12)].
Definition other_vk (vk : N) : Prop := ~ In vk (map fst vk_table).
Definition alt_held (ctl : N) : bool := N.testbit ctl 0 || N.testbit ctl 1.
Definition ctrl_held (ctl : N) : bool := N.testbit ctl 2 || N.testbit ctl 3.

(** ** Control signals *)

(** Whether the control event [c] (0: Ctrl-C, 1: Ctrl-Break) is among those caught. *)
Definition caught (catch : N) (regs : nat) (c : N) : bool :=
  negb (regs =? 0)%nat && (c <? 2) && N.testbit catch c.

(** The control events of a timeline that are caught, and those that are not; the input
    records it brings. *)
Fixpoint catches (catch : N) (regs : nat) (l : list wtick) : list N :=
  match l with
  | [] => []
  | WCtrl c _ :: l => if caught catch regs c then c :: catches catch regs l else catches catch regs l
  | _ :: l => catches catch regs l
  end.
Fixpoint misses (catch : N) (regs : nat) (l : list wtick) : list N :=
  match l with
  | [] => []
  | WCtrl c _ :: l => if caught catch regs c then misses catch regs l else c :: misses catch regs l
  | _ :: l => misses catch regs l
  end.
Fixpoint brings (catch : N) (regs : nat) (l : list wtick) : list record :=
  match l with
  | [] => []
  | WRec r :: l => r :: brings catch regs l
  | WCtrl c true :: l => if caught catch regs c then wake_record :: brings catch regs l else brings catch regs l
  | _ :: l => brings catch regs l
  end.

(** The signal of a control event. *)
Definition ctrl_signal (c : N) : signal := if c =? 0 then Interrupt else Break.

(** The control event caught and not yet reported, if there is one. *)
Definition unreported (s : wsys) : list N :=
  match win_conv_signal (w_last s) with Some _ => [w_last s] | None => [] end.
(** The last of a list, as a list. *)
Definition last_of (l : list N) : list N := match rev l with [] => [] | c :: _ => [c] end.

(** ** Histories of reading *)

Inductive wrop : Type :=
| RWait (t : option duration)
| REvent (t : option duration)
| RRawEvent (len : nat) (t : option duration).

(** The answer, and the records handed out with it. *)
Inductive wreply : Type := RBool (b : bool) | RGot (e : option event) (rs : list record) | RErr (e : N).
Definition rop (E : env) (o : wrop) (s : wsys) : out wsys Empty_set wreply :=
  let fin {A} (f : A -> wreply) (r : wsres A) : out wsys Empty_set wreply :=
    match r with Ret s a => Ret s (f a) | Fail s e => Ret s (RErr e) | Panic => Panic | Blocked => Blocked end in
  match o with
  | RWait t => fin RBool (win_wait_event t s)
  | REvent t => fin (fun p => RGot (fst p) (snd p)) (win_read_event E t s)
  | RRawEvent len t => fin (fun p => RGot (fst p) (snd p)) (win_read_raw_event len t s)
  end.

Fixpoint run_wr (E : env) (os : list wrop) (s : wsys) : option (wsys * list wreply) :=
  match os with
  | [] => Some (s, [])
  | o :: os => match rop E o s with
               | Ret s r => match run_wr E os s with Some (s, rs) => Some (s, r :: rs) | None => None end
               | _ => None
               end
  end.

(** All records not yet handed out: waiting, or still to come. *)
Definition records (s : wsys) : list record := w_queue s ++ brings (w_catch s) (w_regs s) (w_time s).
Definition handed (r : wreply) : list record := match r with RGot _ rs => rs | _ => [] end.

(** The events for records: keys first, then the mouse (whose state carries on), then
    sizes; everything else gives [NoEvent]. *)
Definition decoded (E : env) (rd : wreader) (r : record) (rd' : wreader) (e : event) : Prop :=
  match key_press_event r with
  | Some k => rd' = rd /\ e = EKey k
  | None => exists m, win_mouse_event E r rd = Val (rd', m) /\
      e = match m with
          | Some m => EMouse m
          | None => match size_event E r with Some z => EResize z | None => ENoEvent end
          end
  end.

(** What the answer to an operation may be. *)
Definition fits (E : env) (o : wrop) (rd : wreader) (r : wreply) (rd' : wreader) : Prop :=
  match o, r with
  | RWait _, RBool _ | _, RErr _ => rd' = rd
  | REvent _, RGot None [] => rd' = rd
  | REvent _, RGot (Some (ESignal _)) [] => rd' = rd
  | REvent _, RGot (Some e) [r] => decoded E rd r rd' e
  | RRawEvent _ _, RGot None [] => rd' = rd
  | RRawEvent _ _, RGot (Some (ESignal _)) [] => rd' = rd
  | RRawEvent len _, RGot (Some (ERaw n)) rs => rd' = rd /\ n = length rs /\ (n <= len)%nat
  | _, _ => False
  end.
Inductive fits_all (E : env) : list wrop -> wreader -> list wreply -> wreader -> Prop :=
| fits_nil : forall rd, fits_all E [] rd [] rd
| fits_cons : forall o os r rs rd rd' rd'',
    fits E o rd r rd' -> fits_all E os rd' rs rd'' -> fits_all E (o :: os) rd (r :: rs) rd''.

(** The timeline after the next [k] steps of the library. *)
Fixpoint after_steps (k : nat) (l : list wtick) : list wtick :=
  match k, l with
  | O, _ => l
  | S k', WStep :: l' => after_steps k' l'
  | S _, _ :: l' => after_steps k l'
  | S _, [] => []
  end.

(** Ticks that bring neither records nor failures nor control events. *)
Definition quiet_tick (t : wtick) : Prop := match t with WTime | WStep => True | _ => False end.

(** ** Preparing *)

(** A program that prepares, does something (which may be more of the same) and restores. *)
Inductive nest : Type := Nest (cfg : config) (body : list nest).
Fixpoint run_nest (t : nest) (s : wsys) : wsres unit :=
  match t with
  | Nest cfg body =>
      let! (s, st) := win_prepare cfg s in
      let! (s, _u) := (fix go l s := match l with
                                     | [] => Ret s tt
                                     | t :: l => let! (s, _u) := run_nest t s in go l s
                                     end) body s in
      win_restore st s
  end.
Fixpoint run_nests (l : list nest) (s : wsys) : wsres unit :=
  match l with
  | [] => Ret s tt
  | t :: l => let! (s, _u) := run_nest t s in run_nests l s
  end.

(** No call will fail. *)
Definition os_works (s : wsys) : Prop := Forall (fun o => o = None) (w_os s).

(** What [prepare] must make of each bit of the input mode: 0 processed input, 1 line
    input, 2 echo, 3 window events, 4 mouse events, 6 quick edit, 7 extended flags,
    9 escape sequences. *)
Definition mode_bit (cfg : config) (old : N) (i : N) : bool :=
  match i with
  | 0 => negb (block_signals cfg)
  | 1 => false
  | 2 => false
  | 3 => true
  | 4 => cfg_mouse cfg
  | 6 => false
  | 7 => true
  | 9 => false
  | _ => N.testbit old i
  end.

(** What is reported of control events: [told p l rs p'] says that with the events [p]
    (at most one) pending at first and the events [l] caught meanwhile, the replies [rs]
    report what they should, and [p'] is pending afterwards.  A reply that is a signal
    is the last event caught so far; reading (and waiting that does not succeed) only
    gives other replies when nothing is pending at its beginning. *)
Inductive told : list N -> list N -> list wreply -> list N -> Prop :=
| told_nil : forall p, told p [] [] p
| told_signal : forall p l l0 c cs used rs p',
    p ++ l = l0 ++ [c] -> told [] cs rs p' ->
    told p (l ++ cs) (RGot (Some (ESignal (ctrl_signal c))) used :: rs) p'
| told_other : forall p l cs r rs p',
    (forall sig used, r <> RGot (Some (ESignal sig)) used) -> (r = RBool true \/ p = []) ->
    told (last_of (p ++ l)) cs rs p' ->
    told p (l ++ cs) (r :: rs) p'.
