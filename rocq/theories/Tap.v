(** The test library the project's tests are written with: t/libtappp/src/tap++.cpp and
    t/libtappp/include/tap++/tap++.h.

    A test program is modelled by what it does in one run: its calls, in the scopes of the library's
    macros, and the exceptions its own code throws.  Not modelled: set_output() and set_error() (both
    streams are std::cout, tap++.cpp:172-173), threads.  EPSILON and nearly_equal: TapFloat.v. *)
From Verif Require Import Base Fmt Pulp.

(** unsigned arithmetic: tap++.cpp:17-19. *)
Definition uint (z : Z) : Z := z mod 2 ^ 32.

(** The exceptions, as the handlers of tap++.h tell them apart: tap++.h:265-274 (Skip_exception,
    Todo_exception, which are no std::exception), tap++.h:32-42 (fatal_exception), others by what(). *)
Inductive exc : Type :=
| ESkip (reason : bytes)
| ETodo (reason : bytes)
| EFatal (what : bytes)
| EStd (what : bytes)
| EOther.

(** The variables of tap++.cpp:11, 17-19, 32-34, 50, 174 and [_current_message] of tap++.h:310, with what has
    been written to std::cout. *)
Record tap : Type := mkTap {
  TODO : bytes; expected : Z; counter : Z; not_oks : Z;
  is_planned : bool; no_planned : bool; has_output_plan : bool; is_done : bool;
  block_expected : list Z; current_message : option bytes; printed : bytes }.

(** Before main: tap++.cpp:11, 17-19, 32-34, 50, tap++.h:310. *)
Definition tap0 : tap := mkTap [] 0 0 0 false false false false [] None [].

(** How a piece of the program ends. [Terminated]: an exception leaves a NOEXCEPT function or main(). *)
Inductive flow : Type :=
| Fine
| Thrown (e : exc)
| Exited (status : Z)
| Terminated
| Undefined.

(** A piece of program. *)
Definition T : Type := tap -> flow * tap.

(** One after the other. No code of its own. *)
Definition andthen (f g : T) : T := fun s => match f s with (Fine, s') => g s' | r => r end.
Notation "f ;; g" := (andthen f g) (at level 61, right associativity, only parsing).
(** Nothing. No code of its own. *)
Definition skip_it : T := fun s => (Fine, s).

(** Assignments. No code of their own. *)
Definition set_TODO v s := mkTap v (expected s) (counter s) (not_oks s) (is_planned s) (no_planned s) (has_output_plan s) (is_done s) (block_expected s) (current_message s) (printed s).
Definition set_expected v s := mkTap (TODO s) v (counter s) (not_oks s) (is_planned s) (no_planned s) (has_output_plan s) (is_done s) (block_expected s) (current_message s) (printed s).
Definition set_counts c n s := mkTap (TODO s) (expected s) c n (is_planned s) (no_planned s) (has_output_plan s) (is_done s) (block_expected s) (current_message s) (printed s).
Definition set_flags p n s := mkTap (TODO s) (expected s) (counter s) (not_oks s) p n (has_output_plan s) (is_done s) (block_expected s) (current_message s) (printed s).
Definition set_output_plan s := mkTap (TODO s) (expected s) (counter s) (not_oks s) (is_planned s) (no_planned s) true (is_done s) (block_expected s) (current_message s) (printed s).
Definition set_done s := mkTap (TODO s) (expected s) (counter s) (not_oks s) (is_planned s) (no_planned s) (has_output_plan s) true (block_expected s) (current_message s) (printed s).
Definition set_blocks v s := mkTap (TODO s) (expected s) (counter s) (not_oks s) (is_planned s) (no_planned s) (has_output_plan s) (is_done s) v (current_message s) (printed s).
Definition set_message v s := mkTap (TODO s) (expected s) (counter s) (not_oks s) (is_planned s) (no_planned s) (has_output_plan s) (is_done s) (block_expected s) v (printed s).

(** *details::output << line << std::endl: tap++.cpp:40, 125, 131; both streams are std::cout. *)
Definition put (line : bytes) : T := fun s =>
  (Fine, mkTap (TODO s) (expected s) (counter s) (not_oks s) (is_planned s) (no_planned s) (has_output_plan s) (is_done s) (block_expected s) (current_message s)
               (printed s ++ line ++ [nl])).

(** tap++.h:69-99, diag and note: their arguments one after the other. *)
Definition diag (text : bytes) : T := put (lit "# " ++ text).
Definition note (text : bytes) : T := put (lit "# " ++ text).

(** tap++.cpp:21-30. *)
Definition is_todo_test (s : tap) : bool := match TODO s with [] => false | _ => true end.
Definition todo_test (s : tap) : bytes := if is_todo_test s then lit " # TODO " ++ TODO s else [].

(** tap++.cpp:129-136. *)
Definition ok (is_ok : bool) (message : bytes) : T := fun s =>
  let c := uint (counter s + 1) in
  let n := if negb is_ok && negb (is_todo_test s) then uint (not_oks s + 1) else not_oks s in
  put ((if is_ok then [] else lit "not ") ++ lit "ok " ++ fmt_int c ++ lit " - " ++ message ++ todo_test s) (set_counts c n s).

(** tap++.cpp:137-146. *)
Definition not_ok (is_not_ok : bool) (message : bytes) : T := ok (negb is_not_ok) message.
Definition pass (message : bytes) : T := ok true message.
Definition fail (message : bytes) : T := ok false message.

(** tap++.cpp:148-152. *)
Fixpoint skip_loop (n : nat) (reason : bytes) : T :=
  match n with O => skip_it | S n' => pass (lit " # skip " ++ reason) ;; skip_loop n' reason end.
Definition skip (num : Z) (reason : bytes) : T := skip_loop (Z.to_nat (uint num)) reason.

(** tap++.cpp:36-42. *)
Definition output_plan (tests : Z) (extra : bytes) : T := fun s =>
  if has_output_plan s then (Thrown (EFatal (lit "Can't plan twice")), s)
  else (put (lit "1.." ++ fmt_int tests ++ extra) ;; (fun s => (Fine, set_output_plan s))) s.

(** tap++.cpp:124-127. *)
Definition bail_out (reason : bytes) : T := fun s =>
  match put (lit "Bail out!  " ++ reason) s with (_, s') => (Exited 255, s') end.

(** tap++.cpp:71-78, plan(unsigned). *)
Definition plan (tests : Z) : T := fun s =>
  if is_planned s then bail_out (lit "Can't plan again!") s
  else (output_plan (uint tests) [] ;; (fun s => (Fine, set_expected (uint tests) s))) (set_flags true (no_planned s) s).
(** tap++.cpp:79-82, plan(skip_all). *)
Definition plan_skip_all (reason : bytes) : T := output_plan 0 (lit " #skip " ++ reason) ;; (fun s => (Exited 0, s)).
(** tap++.cpp:83-86, plan(no_plan). *)
Definition plan_no_plan : T := fun s => (Fine, set_flags true true s).

(** tap++.cpp:49-67. *)
Definition done_testing_ (tests : Z) : T := fun s =>
  if is_done s then fail (lit "done_testing() was already called") s
  else
    ((fun s =>
        if negb (expected s =? 0) && negb (tests =? expected s)
        then fail (lit "planned to run " ++ fmt_int (expected s) ++ lit " tests but done_testing() expects " ++ fmt_int tests) s
        else (Fine, set_expected tests s)) ;;
     (fun s => (Fine, set_flags true (no_planned s) s)) ;;
     (fun s => if has_output_plan s then (Fine, s) else output_plan tests [] s)) (set_done s).

(** tap++.cpp:88-95. *)
Definition done_testing : T := fun s => done_testing_ (counter s) s.
Definition done_testing_n (tests : Z) : T := fun s => done_testing_ (uint tests) (set_flags (is_planned s) false s).

(** tap++.cpp:104-119.  NOEXCEPT: what output_plan throws ends the program. *)
Definition exit_status : T := fun s =>
  ((fun s => if negb (is_planned s) && negb (counter s =? 0)
             then diag (lit "Tests were run but no plan was declared and done_testing() was not seen.") s else (Fine, s)) ;;
   (fun s =>
      if no_planned s then
        match output_plan (counter s) [] s with
        | (Fine, s') => (Exited (Z.min 254 (not_oks s')), s')
        | (_, s') => (Terminated, s')
        end
      else if expected s =? counter s then (Exited (Z.min 254 (not_oks s)), s)
      else (Exited 255, s))) s.

(** tap++.cpp:184-186. *)
Definition failed_test_msg (s : tap) : bytes := if is_todo_test s then lit "Failed (TODO) test" else lit "Failed test".

(** What the comparison of is() and isnt() does: p(left, right), tap++.h:105, 140. *)
Inductive comparison : Type := CTrue | CFalse | CStd (what : bytes) | COther.

(** tap++.h:101-129, is().  [left] and [right]: what << writes of them. *)
Definition is_ (c : comparison) (left right message : bytes) : T :=
  let name := fun s => diag (failed_test_msg s ++ lit " '" ++ message ++ lit "'") s in
  let both := diag (lit "       Got: " ++ left) ;; diag (lit "  Expected: " ++ right) in
  match c with
  | CTrue => ok true message
  | CFalse => ok false message ;; name ;; both
  | CStd what => fail message ;; name ;; diag (lit "Caught exception '" ++ what ++ lit "'") ;; both
  | COther => fail message ;; name ;; diag (lit "Caught unknown exception") ;; both
  end.

(** tap++.h:136-154, isnt(). *)
Definition isnt (c : comparison) (message : bytes) : T :=
  match c with
  | CTrue => ok false message
  | CFalse => ok true message
  | CStd what => fail message ;; diag (lit "In test " ++ message) ;; diag (lit "Caught exception: " ++ what)
  | COther => fail message ;; diag (lit "In test " ++ message) ;; diag (lit "Caught unknown exception")
  end.

(** TAP::fail(_current_message), tap++.h:361, 365: a std::string made of a null pointer; libstdc++ throws. *)
Definition fail_current : T := fun s =>
  match current_message s with
  | Some m => fail m s
  | None => (Thrown (EStd (lit "basic_string: construction from null is not valid")), s)
  end.

(** TAP::pass(_current_message), tap++.h:376. *)
Definition pass_current : T := fun s =>
  match current_message s with
  | Some m => pass m s
  | None => (Thrown (EStd (lit "basic_string: construction from null is not valid")), s)
  end.

(** if (_current_message) TAP::fail(_current_message): tap++.h:329, 333, 337. *)
Definition fail_current_if : T := fun s => match current_message s with Some m => fail m s | None => (Fine, s) end.

(** tap++.cpp:175-177 and 178-182. *)
Definition start_block (n : Z) : T := fun s => (Fine, set_blocks (uint (counter s + n) :: block_expected s) s).
Definition stop_block (k : Z -> T) : T := fun s =>
  match block_expected s with [] => (Undefined, s) | top :: r => k top (set_blocks r s) end.

(** One run of a test program, statement by statement. *)
Inductive stmt : Type :=
| SNil
| SSeq (a b : stmt)
| SOk (b : bool) (message : bytes)
| SNotOk (b : bool) (message : bytes)
| SPass (message : bytes)
| SFail (message : bytes)
| SIs (c : comparison) (left right message : bytes)
| SIsnt (c : comparison) (message : bytes)
| SSkip (num : Z) (reason : bytes)
| SPlan (tests : Z)
| SSkipAll (reason : bytes)
| SNoPlan
| SDone
| SDoneN (tests : Z)
| SDiag (text : bytes)
| SNote (text : bytes)
| SBail (reason : bytes)
| STodo (why : bytes)                      (* TODO = why *)
| SThrow (e : exc)                         (* skip(reason) and skip_todo(reason), tap++.cpp:190-195, or the tested code *)
| SCatch (body : stmt)                     (* try { body } catch (...) { } *)
| SGuard (body : stmt)                     (* { todo_guard g; body }, tap++.cpp:166-170 *)
| STry (body : stmt) (name : bytes)        (* TRY, tap++.h:285-297 *)
| SFAIL (body : stmt) (name : bytes)       (* FAIL, tap++.h:299-307 *)
| SDecl (body : stmt) (name : bytes)       (* TRY_DECL, tap++.h:373-377 *)
| SBlock (planned : Z) (body : stmt).      (* BLOCK_START, BLOCK_END, tap++.h:342-367 *)

(** tap++.cpp:166-170: the guard puts TODO back however the scope is left, unless the program ends. *)
Definition guarded (body : T) : T := fun s =>
  match body s with
  | (Fine, s') => (Fine, set_TODO (TODO s) s')
  | (Thrown e, s') => (Thrown e, set_TODO (TODO s) s')
  | r => r
  end.

(** Handlers: catch clauses are tried in order, tap++.h:322-338, 353-367; an exception thrown by one goes out. *)
Definition caught (body : T) (handler : exc -> T) : T := fun s =>
  match body s with (Thrown e, s') => handler e s' | r => r end.

(** The calls above, the macros of tap++.h:285-377. *)
Fixpoint exec (p : stmt) : T :=
  match p with
  | SNil => skip_it
  | SSeq a b => exec a ;; exec b
  | SOk b m => ok b m
  | SNotOk b m => not_ok b m
  | SPass m => pass m
  | SFail m => fail m
  | SIs c l r m => is_ c l r m
  | SIsnt c m => isnt c m
  | SSkip n r => skip n r
  | SPlan n => plan n
  | SSkipAll r => plan_skip_all r
  | SNoPlan => plan_no_plan
  | SDone => done_testing
  | SDoneN n => done_testing_n n
  | SDiag t => diag t
  | SNote t => note t
  | SBail r => bail_out r
  | STodo why => fun s => (Fine, set_TODO why s)
  | SThrow e => fun s => (Thrown e, s)
  | SCatch b => caught (exec b) (fun _ => skip_it)
  | SGuard b => guarded (exec b)
  | STry b name =>
      caught (exec b ;; pass name)
        (fun e => match e with
                  | EFatal what | EStd what => fail name ;; note (lit "Caught exception: " ++ what)
                  | _ => fail name
                  end)
  | SFAIL b name => caught (exec b ;; fail name) (fun _ => pass name)
  | SDecl b name =>
      (fun s => (Fine, set_message (Some name) s)) ;; exec b ;; pass_current ;; (fun s => (Fine, set_message None s))
  | SBlock n b =>
      caught
        (guarded
           (start_block n ;; exec b ;;
            stop_block (fun top s => if counter s =? top then (Fine, s)
                                     else note (lit "There seems to be a wrong number of tests!") s)))
        (fun e => match e with
                  | ESkip reason => stop_block (fun top s => skip (top - counter s) reason s)
                  | ETodo _ => note (lit "Can't handle todo properly yet")
                  | EFatal what | EStd what => fail_current ;; note (lit "Got error: " ++ what)
                  | EOther => fail_current ;; note (lit "Died with some mysterious error")
                  end)
  end.

(** int main() { body; return exit_status(); }, as in all of t/*.cpp. An exception nobody catches ends the
    program. *)
Definition main (body : stmt) : flow * tap :=
  match (exec body ;; exit_status) tap0 with (Thrown _, s) => (Terminated, s) | r => r end.

(** int main() { TEST_START(num) body TEST_END }, tap++.h:309-340, as in t/00-sanity.cpp.
    Each uses encountered() - planned() etc. on unsigned. *)
Definition test_main (num : Z) (body : stmt) : flow * tap :=
  match
    (plan num ;;
     caught
       (exec body ;;
        (fun s =>
           if counter s <? expected s
           then note (lit "Looks like you planned " ++ fmt_int (expected s) ++ lit " tests but only ran " ++ fmt_int (counter s)) s
           else if expected s <? counter s
           then note (lit "Looks like you planned " ++ fmt_int (expected s) ++ lit " tests but ran " ++ fmt_int (uint (counter s - expected s)) ++ lit " extra") s
           else (Fine, s)))
       (fun e => match e with
                 | ESkip reason => fun s => skip (expected s - counter s) reason s
                 | ETodo _ => skip_it
                 | EFatal what => fail_current_if ;; note (lit "A fatal error occured:," ++ what ++ lit " aborting")
                 | EStd what => fail_current_if ;; note (lit "Got unknown error: " ++ what)
                 | EOther => fail_current_if
                 end) ;;
     exit_status) tap0
  with (Thrown _, s) => (Terminated, s) | r => r end.
