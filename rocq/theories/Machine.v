(** Model of how the size of the machine follows from the configuration: Cpu::Config
    (src/t86/cpu.h:26-78, cpu.cpp:365-387, 402-415) and the constructors of Cpu
    (cpu.cpp:104-113, 341-343). *)
From Coq Require Import Ascii String ZArith NArith List Bool.
From Verif Require Import Base Text Config Cpu.
Import ListNotations.
Open Scope Z_scope.

(** std::stoul: white space, a sign, the longest prefix of digits; a minus sign negates in
    64 bits; [None]: it throws. *)
Definition stoul (s : text) : option Z :=
  match strip_front s with
  | c :: s' =>
      if Ascii.eqb c (ch 45) then option_map (fun n => u64 (- n)) (svtou64 s')
      else if Ascii.eqb c (ch 43) then svtou64 s'
      else svtou64 (c :: s')
  | [] => None
  end.

(** cpu.h:33-55 *)
Inductive setting : Type := NRegs | NFregs | NAlus | NEntries | NRam | NGates.
Definition option_name (k : setting) : text :=
  match k with
  | NRegs => str "-registerCnt" | NFregs => str "-floatRegisterCnt" | NAlus => str "-aluCnt"
  | NEntries => str "-reservationStationEntriesCnt" | NRam => str "-ram" | NGates => str "-ramGates"
  end.
Definition default (k : setting) : Z :=
  match k with NRegs => 10 | NFregs => 5 | NAlus => 1 | NEntries => 2 | NRam => 1024 | NGates => 4 end.

(** cpu.cpp:402-415: the constructor of Cpu::Config, which runs at the first use of
    Cpu::Config::instance, here after the command line has been parsed *)
Definition with_default (a : args) (k : setting) : args := fst (set_default a (option_name k) (show_Z (default k))).
Definition with_defaults (a : args) : args := fold_left with_default [NRegs; NFregs; NAlus; NEntries; NRam; NGates] a.

(** cpu.cpp:365-387: registerCnt, floatRegisterCnt, aluCnt, reservationStationEntriesCnt,
    ramSize, ramGatesCount *)
Definition configured (a : args) (k : setting) : option Z :=
  match get (with_defaults a) (option_name k) with Some v => stoul v | None => None end.

(** What the constructor with six arguments (cpu.cpp:115-125) is called with, as numbers of
    type size_t. That there is memory for so many is assumed. *)
Record sizes : Type := mkSizes { z_regs : Z; z_fregs : Z; z_alus : Z; z_entries : Z; z_ram : Z; z_gates : Z }.
Definition obind {A B} (x : option A) (f : A -> option B) : option B := match x with Some v => f v | None => None end.

(** 112-113 *)
Definition cpu3 (a : args) (r f m : Z) : option sizes :=
  obind (configured a NAlus) (fun alus => obind (configured a NGates) (fun gates => Some (mkSizes r f alus (u64 (2 * alus)) m gates))).
(** 108-110 *)
Definition cpu2 (a : args) (r f : Z) : option sizes := obind (configured a NRam) (cpu3 a r f).
(** 104-106 *)
Definition cpu1 (a : args) (r : Z) : option sizes :=
  obind (configured a NFregs) (fun f => obind (configured a NRam) (cpu3 a r f)).
(** 341-343 *)
Definition cpu0 (a : args) : option sizes :=
  obind (configured a NRegs) (fun r => obind (configured a NAlus) (fun f => obind (configured a NEntries) (cpu3 a r f))).

(** The machine of that size *)
Definition machine (z : sizes) : cfg :=
  mkCfg (Z.to_nat (z_regs z)) (Z.to_nat (z_fregs z)) (Z.to_nat (z_alus z)) (Z.to_nat (z_entries z)) (Z.to_nat (z_ram z)) (Z.to_nat (z_gates z)).
