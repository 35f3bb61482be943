(** The example programs that write styled text to a terminal, as lists of calls.  Every call
    is followed by [?], so that the program goes on as long as no call fails
    ([api_run]: M_Api.v).  [write!] and [writeln!] without arguments have one piece of text. *)
From Coq Require Import String Ascii.
From Verif Require Import Base M_Utf8 M_Geom M_Attr M_Buf M_Writer M_Api.

(** A literal in the source, as characters. *)
Definition chars (s : string) : list N := map N_of_ascii (list_ascii_of_string s).

(** examples/attribute_test.rs:10-53, without the line feed at the end (54). *)
Definition attribute_test : list tmethod :=
  [TWriteFmt [chars "plain"];
   TSetFg (Some Red); TWriteFmt [chars " add red fg"];
   TSetBg (Some Blue); TWriteFmt [chars " add blue bg"];
   TAddStyle BOLD; TWriteFmt [chars " add bold"];
   TAddStyle REVERSE; TWriteFmt [chars " add reverse"];
   TAddStyle UNDERLINE; TWriteFmt [chars " add underline"];
   TAddStyle ITALIC; TWriteFmt [chars " add italic"];
   TRemoveStyle REVERSE; TWriteFmt [chars " remove reverse"];
   TSetFg (Some Magenta); TWriteFmt [chars " add magenta fg"];
   TSetBg (Some Green); TWriteFmt [chars " add green bg"];
   TSetFg None; TWriteFmt [chars " reset fg"];
   TRemoveStyle UNDERLINE; TWriteFmt [chars " remove underline"];
   TRemoveStyle BOLD; TWriteFmt [chars " remove bold"];
   TSetBg None; TWriteFmt [chars " reset bg"];
   TRemoveStyle ITALIC; TWriteFmt [chars " remove italic"]].

(** examples/color.rs:14-25: the two messages, without the line feeds at their ends. *)
Definition error_line : list tmethod :=
  [TBold; TSetFg (Some Red); TWriteFmt [chars "error"]; TClearAttributes; TWriteFmt [chars ": error message"]].
Definition help_line : list tmethod :=
  [TWriteStyled (Some Green) None (Some BOLD) (chars "help"); TWriteFmt [chars ": help message"]].
