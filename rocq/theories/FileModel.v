(** Model of writing a configuration to a file and reading a file.

    A file is its text: encoding and decoding are taken to be inverse, the
    operating system's line separator to be a line feed, and files to exist and be
    readable. *)
From Coq Require Import Ascii String Arith NArith ZArith Bool List.
From Verif Require Import PyStr PyBase CfgModel JunosModel.
Import ListNotations.

Definition LF : ascii := "010".
Definition CR : ascii := "013".

(** ciscoconfparse.py:3903-3915 save_as *)
Definition save_as (w : world) : str := flat_map (fun line => line ++ [LF]) (ioscfg w).

(** open(newline=None), ciscoconfparse.py:943: CR LF and CR are read as LF. *)
Fixpoint universal (s : str) : str :=
  match s with
  | [] => []
  | c :: s' =>
      if Ascii.eqb c CR then
        match s' with
        | c2 :: s2 => if Ascii.eqb c2 LF then LF :: universal s2 else LF :: universal s'
        | [] => [LF]
        end
      else c :: universal s'
  end.

(** The length of a match of [\r*\n+] ([plus]) or [\r*\n] at the start of [s]. *)
Definition sep_length (plus : bool) (s : str) : option nat :=
  let k := length (take_while (Ascii.eqb CR) s) in
  match take_while (Ascii.eqb LF) (skipn k s) with
  | [] => None
  | lfs => Some (k + if plus then length lfs else 1)
  end.
(** re.split on it; [skip] characters belong to the match being left out. *)
Fixpoint rgx_split (plus : bool) (skip : nat) (cur : str) (s : str) : list str :=
  match s with
  | [] => [rev cur]
  | c :: s' =>
      match skip with
      | S k => rgx_split plus k cur s'
      | 0 => match sep_length plus s with
             | Some n => rev cur :: rgx_split plus (pred n) [] s'
             | None => rgx_split plus 0 (c :: cur) s'
             end
      end
  end.

(** ciscoconfparse.py:843-910 read_config_file as called in __init__ (752-757),
    [factory=False] *)
Definition read_config_file (o : opts) (text : str) : list str :=
  rgx_split (o_ignore_blank o) 0 [] (universal text).

(** ciscoconfparse.py:615-790 with the name of a file: lines of length zero are not
    filtered as they are for a list *)
Definition parse_file (o : opts) (text : str) : result world :=
  let lines := read_config_file o text in
  match o_syntax o with
  | Junos => do ls <- convert_junos_to_ios 4 (lit "#") lines; reboot (mkW o [] []) ls
  | _ => reboot (mkW o [] []) lines
  end.
