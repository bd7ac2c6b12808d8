(** What the function for the constructors is meant to do, on machines with branch delay slots.

    The instructions are at fixed addresses.  A function outside of them is a step of its own: it is given the state, does
    what it does and returns. *)

Require Import ZArith Bool List String.
Require Import Verif.Ints Verif.MipsCpu.
Require Verif.ShSpec.
Import ListNotations.
Local Open Scope string_scope.
Local Open Scope list_scope.
Local Open Scope Z_scope.

(** [ws] from address [base] on, in units of [unit] bytes. *)
Definition code_at (unit base : Z) (ws : list Z) (a : Z) : option Z :=
  if (base <=? a) && ((a - base) mod unit =? 0) then nth_error ws (Z.to_nat ((a - base) / unit)) else None.

(** ** MIPS *)

(** The instruction at [m_pc] is executed next and the one at [m_next] after it. *)
Record machine := mkMachine { m_pc : Z; m_next : Z; m_cpu : cpu }.
Definition at_pc (a : Z) (c : cpu) : machine := mkMachine a (a + 4) c.
Definition step (code : Z -> option Z) (m : machine) : option machine :=
  match code (m_pc m) with
  | None => None
  | Some w =>
    let c := m_cpu m in
    if (w_op w =? 0) && (w_fn w =? 8) then Some (mkMachine (m_next m) (reg c (w_rs w)) c)
    else if (w_op w =? 0) && (w_fn w =? 9) then Some (mkMachine (m_next m) (reg c (w_rs w)) (set c (w_rd w) (m_pc m + 8)))
    else match branch_if w c with
         | Some (taken, likely) =>
           match branch_target (m_pc m) w with
           | None => None
           | Some t =>
             if taken then Some (mkMachine (m_next m) t c)
             else if likely then Some (mkMachine (m_next m + 4) (m_next m + 8) c)
             else Some (mkMachine (m_next m) (m_next m + 4) c)
           end
         | None => match exec w c with Some c => Some (mkMachine (m_next m) (m_next m + 4) c) | None => None end
         end
  end.
(** The machine runs, with the calls it makes: the function and the state it is called with.  A function returns to the
    address in ra. *)
Inductive runs (code : Z -> option Z) (call : Z -> cpu -> cpu) : machine -> list (Z * cpu) -> machine -> Prop :=
| runs_stop m : runs code call m [] m
| runs_step m m' l e : step code m = Some m' -> runs code call m' l e -> runs code call m l e
| runs_call f c l e : code f = None -> runs code call (at_pc (reg c 31) (call f c)) l e -> runs code call (at_pc f c) ((f, c) :: l) e.

(** The registers a function keeps: s0-s7, gp, sp and fp. *)
Definition saved (r : Z) : Prop := 16 <= r <= 23 \/ 28 <= r <= 30.

(** The sections with constructors: where each starts and the functions it lists.  The table has the start and the end of
    each. *)
Fixpoint listed (c : cpu) (a : Z) (fs : list Z) : Prop :=
  match fs with [] => True | f :: fs => peek32 c a = f /\ listed c (a + 4) fs end.
Fixpoint tabulated (c : cpu) (a : Z) (l : list (Z * list Z)) : Prop :=
  match l with
  | [] => True
  | (start, fs) :: l => peek32 c a = start /\ peek32 c (a + 4) = start + 4 * Z.of_nat (List.length fs) /\ tabulated c (a + 8) l
  end.
Definition within (a n x : Z) : Prop := a <= x < a + n.
(** The addresses of the table and of the sections. *)
Definition data_of (tab : Z) (l : list (Z * list Z)) (x : Z) : Prop :=
  within tab (8 * Z.of_nat (List.length l)) x \/ Exists (fun s => within (fst s) (4 * Z.of_nat (List.length (snd s))) x) l.
Definition all_of (l : list (Z * list Z)) : list Z := flat_map snd l.

(** The table and the sections are in memory: aligned, not beyond its end, with the functions. *)
Definition in_memory (c : cpu) (tab : Z) (l : list (Z * list Z)) : Prop :=
  0 <= tab /\ tab mod 4 = 0 /\ tab + 8 * Z.of_nat (List.length l) < 2 ^ 32 /\ tabulated c tab l /\
  Forall (fun s => 0 <= fst s /\ fst s mod 4 = 0 /\ fst s + 4 * Z.of_nat (List.length (snd s)) < 2 ^ 32 /\ listed c (fst s) (snd s)) l.

(** Every function of the list, called with the stack pointer [sp], keeps the saved registers and the addresses in [keep]. *)
Definition keeps (call : Z -> cpu -> cpu) (fs : list Z) (sp : Z) (keep : Z -> Prop) : Prop :=
  forall f c, In f fs -> reg c 29 = sp ->
    (forall r, saved r -> reg (call f c) r = reg c r) /\ (forall x, keep x -> ram (call f c) x = ram c x).

(** The memory seen by the calls: outside of [hidden] each call sees what the one before left, the first one what was there
    in the beginning, and in the end there is what the last one left. *)
Fixpoint memory_through (hidden : Z -> Prop) (call : Z -> cpu -> cpu) (before : Z -> Z) (l : list (Z * cpu)) (after : Z -> Z) : Prop :=
  match l with
  | [] => forall x, ~ hidden x -> after x = before x
  | (f, c) :: l => (forall x, ~ hidden x -> ram c x = before x) /\ memory_through hidden call (ram (call f c)) l after
  end.

(** ** SuperH *)

Record shcpu := mkShcpu { s_reg : Z -> Z; s_pr : Z; s_t : bool; s_ram : Z -> Z }.
Definition s_set (c : shcpu) (r v : Z) : shcpu := mkShcpu (fun x => if x =? r then u32 v else s_reg c x) (s_pr c) (s_t c) (s_ram c).
Definition s_setpr (c : shcpu) (v : Z) : shcpu := mkShcpu (s_reg c) v (s_t c) (s_ram c).
Definition s_sett (c : shcpu) (t : bool) : shcpu := mkShcpu (s_reg c) (s_pr c) t (s_ram c).
(** Big endian. *)
Definition s_peek (c : shcpu) (a : Z) : Z :=
  ((s_ram c (u32 a) * 256 + s_ram c (u32 (a + 1))) * 256 + s_ram c (u32 (a + 2))) * 256 + s_ram c (u32 (a + 3)).
Definition s_poke (c : shcpu) (a v : Z) : shcpu :=
  mkShcpu (s_reg c) (s_pr c) (s_t c)
    (fun x => if x =? u32 a then bits v 24 8 else if x =? u32 (a + 1) then bits v 16 8
              else if x =? u32 (a + 2) then bits v 8 8 else if x =? u32 (a + 3) then bits v 0 8 else s_ram c x).
Record shmachine := mkShm { h_pc : Z; h_next : Z; h_cpu : shcpu }.
Definition sh_at (a : Z) (c : shcpu) : shmachine := mkShm a (a + 2) c.
(** Only the instructions that are needed. *)
Definition sh_step (code : Z -> option Z) (m : shmachine) : option shmachine :=
  let c := h_cpu m in
  let on c := Some (mkShm (h_next m) (h_next m + 2) c) in
  match code (h_pc m) with
  | None => None
  | Some w =>
    match ShSpec.sh_decode w with
    | Some (name, [ShSpec.Rn a; ShSpec.Dec b]) =>
      if String.eqb name "mov.l" then on (s_set (s_poke c (s_reg c b - 4) (s_reg c a)) b (s_reg c b - 4)) else None
    | Some (name, [ShSpec.Sys s; ShSpec.Dec b]) =>
      if String.eqb name "sts.l" && String.eqb s "pr" then on (s_set (s_poke c (s_reg c b - 4) (s_pr c)) b (s_reg c b - 4)) else None
    | Some (name, [ShSpec.Pcr k d; ShSpec.Sys s]) =>
      if String.eqb name "mova" && String.eqb s "r0" then on (s_set c 0 (ShSpec.pc_base k (h_pc m) + k * d)) else None
    | Some (name, [ShSpec.Rn a; ShSpec.Rn b]) =>
      if String.eqb name "mov" then on (s_set c b (s_reg c a))
      else if String.eqb name "cmp/eq" then on (s_sett c (s_reg c a =? s_reg c b)) else None
    | Some (name, [ShSpec.Ind a; ShSpec.Rn b]) => if String.eqb name "mov.l" then on (s_set c b (s_peek c (s_reg c a))) else None
    | Some (name, [ShSpec.Disp k d a; ShSpec.Rn b]) =>
      if String.eqb name "mov.l" then on (s_set c b (s_peek c (s_reg c a + k * d))) else None
    | Some (name, [ShSpec.Imm d; ShSpec.Rn b]) => if String.eqb name "add" then on (s_set c b (s_reg c b + s8 d)) else None
    | Some (name, [ShSpec.Jump a]) =>
      if String.eqb name "jsr" then Some (mkShm (h_next m) (s_reg c a) (s_setpr c (h_pc m + 4))) else None
    | Some (name, [ShSpec.Near d]) =>
      if String.eqb name "bf" then Some (if s_t c then mkShm (h_next m) (h_next m + 2) c else sh_at (h_pc m + 4 + 2 * d) c) else None
    | Some (name, [ShSpec.Inc a; ShSpec.Sys s]) =>
      if String.eqb name "lds.l" && String.eqb s "pr" then on (s_set (s_setpr c (s_peek c (s_reg c a))) a (s_reg c a + 4)) else None
    | Some (name, [ShSpec.Inc a; ShSpec.Rn b]) =>
      if String.eqb name "mov.l" then on (s_set (s_set c a (s_reg c a + 4)) b (s_peek c (s_reg c a))) else None
    | Some (name, []) => if String.eqb name "rts" then Some (mkShm (h_next m) (s_pr c) c) else None
    | _ => None
    end
  end.
Inductive sh_runs (code : Z -> option Z) (call : Z -> shcpu -> shcpu) : shmachine -> list Z -> shmachine -> Prop :=
| shr_stop m : sh_runs code call m [] m
| shr_step m m' l e : sh_step code m = Some m' -> sh_runs code call m' l e -> sh_runs code call m l e
| shr_call f c l e : code f = None -> sh_runs code call (sh_at (s_pr c) (call f c)) l e -> sh_runs code call (sh_at f c) (f :: l) e.
