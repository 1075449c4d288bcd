(** Model of the banner written at the top of a log and of the queries of the machine it is made from
    (logger/logger.cpp:386-422, parallel/machine.cpp:34-122). *)
From Coq Require Import ZArith List String Ascii Bool.
Import ListNotations.
From Verif Require Import Outcome ModelText.
Local Open Scope string_scope.
Local Open Scope Z_scope.
Local Open Scope res_scope.

(** What the process sees of its surroundings: the name uname gives the host, the variable USER, the working directory, the
    text of /proc/cpuinfo if it can be opened, the name of the GPU and the OpenMP threads if the program was compiled for them, the number of GPUs,
    the local time as printed, and the texts fixed when the program was compiled. *)
Record surroundings : Type := {
  e_host : string; e_user : option string; e_directory : string; e_cpuinfo : option string;
  e_gpu : option string; e_gpus : Z; e_threads : option Z; e_clock : string;
  e_branch : string; e_hash : string; e_compiler : string }.

(** std::getline until the end of the file: the pieces between newlines; no line after a final newline. *)
Fixpoint getlines (cur : string) (s : string) : list string :=
  match s with
  | EmptyString => match cur with EmptyString => [] | _ => [cur] end
  | String c s' => if Ascii.eqb c "010" then cur :: getlines "" s' else getlines (cur ++ String c "") s'
  end.
(** boost::split with the predicate c == ' ', without token compression (machine.cpp:45). *)
Fixpoint split_blanks (cur : string) (s : string) : list string :=
  match s with
  | EmptyString => [cur]
  | String c s' => if Ascii.eqb c " " then cur :: split_blanks "" s' else split_blanks (cur ++ String c "") s'
  end.
(** The words from the third on, one blank between two (machine.cpp:46-52). *)
Definition from_third (line : string) : string :=
  match split_blanks "" line with
  | _ :: _ :: w :: ws => fold_left (fun s x => s ++ " " ++ x) ws w
  | _ => "not found"
  end.
(** line.substr(0, 10) == "model name" (machine.cpp:43) *)
Definition is_model (line : string) : bool := String.eqb (String.substring 0 10 line) "model name".
(** Machine::getProcessorModel (machine.cpp:34-59): the loop ends at the first such line. *)
Definition processor_model (cpuinfo : option string) : string :=
  match cpuinfo with
  | Some text => match find is_model (getlines "" text) with Some line => from_third line | None => "not found" end
  | None => "not found"
  end.

(** Machine::getHostname (machine.cpp:62-68).  HOST_NAME_MAX is 64; gethostname copies a name of 64 or more characters without the
    final null character, and the string constructor then reads past the end of the buffer. *)
Definition hostname (name : string) : res string :=
  if Z.of_nat (String.length name) <? 64 then Ok name else UB.
(** Machine::getUsername (machine.cpp:71-79) *)
Definition username (user : option string) : string := match user with Some u => u | None => "unknown" end.
(** Machine::getDeviceModel (machine.cpp:82-98) *)
Definition device_model (gpu : option string) : string := match gpu with Some g => g | None => "none" end.
(** Machine::getOpenMPInfo (machine.cpp:115-122) *)
Definition openmp_info (threads : option Z) : string :=
  match threads with Some n => dec n | None => "Not compiled with OpenMP support" end.

(** The drawing (logger.cpp:390-398), without its line ends. *)
Definition drawing : list string := [
  "#                                           ";
  "#                       ______ _____        ";
  "#                       |  _  \  __ \       ";
  "#        _ __ ___   __ _| | | | |  \/       ";
  "#       | '_ ` _ \ / _` | | | | | __        ";
  "#       | | | | | | (_| | |/ /| |_\ \       ";
  "#       |_| |_| |_|\__,_|___/  \____/       ";
  "#                                           "].
(** Logger::makeBanner (logger.cpp:386-422) *)
Definition make_banner (e : surroundings) : res string :=
  h <- hostname (e_host e) ;;
  Ok (fold_right (fun l s => l ++ nl ++ s) "#" (drawing ++ [
    "#     Hostname           " ++ h;
    "#     Username           " ++ username (e_user e);
    "#     Work directory     " ++ e_directory e;
    "#     Processor model    " ++ processor_model (e_cpuinfo e);
    "#     GPU model          " ++ device_model (e_gpu e);
    "#     GPUs per node      " ++ dec (e_gpus e);
    "#     OpenMP max threads " ++ openmp_info (e_threads e);
    "#     System time        " ++ e_clock e;
    "#     git branch         " ++ e_branch e;
    "#     git commit hash    " ++ e_hash e;
    "#     C++ compiler       " ++ e_compiler e;
    "#                        "]%string)%list).
