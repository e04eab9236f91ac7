(** Reading the output of a test program by the Test Anything Protocol (C75): what a harness sees. *)
From Verif Require Import Base Pulp ArithSpec Tap.

(** The lines of a text. *)
Fixpoint lines_from (line : bytes) (text : bytes) : list bytes :=
  match text with
  | [] => match line with [] => [] | _ => [rev line] end
  | c :: r => if Byte.eqb c nl then rev line :: lines_from [] r else lines_from (c :: line) r
  end.
Definition lines (text : bytes) : list bytes := lines_from [] text.

(** The rest of a line behind a prefix. *)
Fixpoint behind (p s : bytes) : option bytes :=
  match p, s with
  | [], _ => Some s
  | c :: p', d :: s' => if Byte.eqb c d then behind p' s' else None
  | _, [] => None
  end.

(** Up to the first space. *)
Fixpoint word (s : bytes) : bytes :=
  match s with [] => [] | c :: r => if Byte.eqb c x20 then [] else c :: word r end.

(** [p] somewhere in [s]. *)
Fixpoint within (p s : bytes) : bool :=
  match behind p s with Some _ => true | None => match s with [] => false | _ :: r => within p r end end.

(** A line of the protocol: plan, test (passed, number, directive TODO), end of all testing, anything else. *)
Inductive tline : Type :=
| LPlan (n : Z)
| LTest (passed : bool) (num : Z) (todo : bool)
| LBail
| LOther.

Definition read_test (passed : bool) (rest : bytes) : tline :=
  match read_int (word rest) with Some n => LTest passed n (within (lit "# TODO") rest) | None => LOther end.

Definition read_line (l : bytes) : tline :=
  match behind (lit "not ok ") l with
  | Some r => read_test false r
  | None =>
      match behind (lit "ok ") l with
      | Some r => read_test true r
      | None =>
          match behind (lit "1..") l with
          | Some r => match read_int (word r) with Some n => LPlan n | None => LOther end
          | None => match behind (lit "Bail out!") l with Some _ => LBail | None => LOther end
          end
      end
  end.

Definition report (text : bytes) : list tline := map read_line (lines text).

(** The plans, the tests, and the failed ones among them that count. *)
Fixpoint plans (r : list tline) : list Z :=
  match r with [] => [] | LPlan n :: q => n :: plans q | _ :: q => plans q end.
Fixpoint tests (r : list tline) : list (bool * Z * bool) :=
  match r with [] => [] | LTest p n t :: q => (p, n, t) :: tests q | _ :: q => tests q end.
Fixpoint failures (ts : list (bool * Z * bool)) : Z :=
  match ts with [] => 0 | (p, _, t) :: q => (if p || t then 0 else 1) + failures q end.

(** Tests are numbered 1, 2, 3, ... *)
Definition numbered (ts : list (bool * Z * bool)) : Prop :=
  map (fun t => snd (fst t)) ts = map Z.of_nat (seq 1 (length ts)).

(** The verdict of a harness on a program that ended: nothing stopped it, one plan, as many tests, numbered in
    order, and none failed but those marked TODO.  (Where the plan stands is not looked at.) *)
Definition accepts (r : list tline) : Prop :=
  ~ In LBail r /\ plans r = [zlen (tests r)] /\ numbered (tests r) /\ failures (tests r) = 0.

(** Texts of one line, and such without the character that starts directives. *)
Definition oneline (m : bytes) : Prop := ~ In nl m.
Definition plain (m : bytes) : Prop := ~ In nl m /\ ~ In x23 m.

Definition tame (e : exc) : Prop :=
  match e with
  | ESkip r => plain r
  | ETodo _ => True
  | EFatal w | EStd w => oneline w
  | EOther => True
  end.
Definition tame_comparison (c : comparison) : Prop := match c with CStd w => oneline w | _ => True end.

(** Test programs with such texts, which do not call plan(0) or plan(skip_all). *)
Fixpoint tidy (p : stmt) : Prop :=
  match p with
  | SNil | SNoPlan | SDone | SDoneN _ => True
  | SSeq a b => tidy a /\ tidy b
  | SOk _ m | SNotOk _ m | SPass m | SFail m => plain m
  | SIs c l r m => tame_comparison c /\ oneline l /\ oneline r /\ plain m
  | SIsnt c m => tame_comparison c /\ plain m
  | SSkip _ r => plain r
  | SPlan n => n mod 2 ^ 32 <> 0
  | SSkipAll _ => False
  | SDiag t | SNote t | SBail t | STodo t => oneline t
  | SThrow e => tame e
  | SCatch b | SGuard b => tidy b
  | STry b m | SFAIL b m | SDecl b m => tidy b /\ plain m
  | SBlock _ b => tidy b
  end.

(** Programs whose own exceptions are those of skip(reason) only. *)
Fixpoint calm (p : stmt) : Prop :=
  match p with
  | SSeq a b => calm a /\ calm b
  | SThrow e => match e with ESkip _ => True | _ => False end
  | SCatch b | SGuard b | STry b _ | SFAIL b _ | SBlock _ b => calm b
  | SDecl _ _ => False
  | SSkipAll _ | SPlan _ | SDone | SDoneN _ => False
  | _ => True
  end.

(** Programs that do not call plan(no_plan). *)
Fixpoint planless (p : stmt) : Prop :=
  match p with
  | SNoPlan => False
  | SSeq a b => planless a /\ planless b
  | SCatch b | SGuard b | STry b _ | SFAIL b _ | SDecl b _ | SBlock _ b => planless b
  | _ => True
  end.

(** The status a program ends with, by what it printed: the number of failed tests, but no more than 254; 255 if
    the number of tests is not the planned one.  (t/libtappp/README.md:281-296 promises 255 for that only if all
    tests passed, else the failed ones with the missing or extra ones.) *)
Definition verdict (r : list tline) (status : Z) : Prop :=
  match plans r with
  | [N] => status = if N =? zlen (tests r) then Z.min 254 (failures (tests r)) else 255
  | [] => status = match tests r with [] => 0 | _ => 255 end
  | _ => False
  end.

(** Test after test. *)
Fixpoint checks (l : list (bool * bytes)) : stmt :=
  match l with [] => SNil | (b, m) :: r => SSeq (SOk b m) (checks r) end.

(** From [s] to [s'] one test was made. *)
Definition tested (passed : bool) (s s' : tap) : Prop :=
  counter s' = uint (counter s + 1)
  /\ not_oks s' = if passed || negb (match TODO s with [] => true | _ => false end) then not_oks s else uint (not_oks s + 1).
