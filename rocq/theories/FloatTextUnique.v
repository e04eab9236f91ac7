(** A floating-point text denotes one number only (C08). *)
From Verif Require Import Base BaseFacts ArithSpec FloatTextSpec.
Local Open Scope Z_scope.

Definition dig (c : byte) : Prop := digit_of c <> None.
(** The rest after the digits. *)
Definition stops (r : bytes) : Prop := match r with [] => True | c :: _ => ~ dig c end.

Lemma digits_dig s : forall a n, read_digits a s = Some n -> Forall dig s.
Proof.
  induction s as [|c s IH]; intros a n E; constructor; cbn [read_digits] in E; unfold dig; destruct (digit_of c) eqn:D; try discriminate; eauto.
Qed.

Lemma nat_dig s n : read_nat s = Some n -> Forall dig s.
Proof. unfold read_nat. destruct s as [|c r]; [discriminate|]. destruct (_ && _); [discriminate|]. apply digits_dig. Qed.

Lemma nat_nonempty s n : read_nat s = Some n -> s <> [].
Proof. intros E ->. discriminate E. Qed.

Lemma split_digits a c : forall r r', Forall dig a -> Forall dig c -> stops r -> stops r' -> a ++ r = c ++ r' -> a = c /\ r = r'.
Proof.
  revert c. induction a as [|x a IH]; intros [|y c] r r' Ha Hc Sr Sr' E; cbn [app] in E.
  - split; [reflexivity|exact E].
  - subst r. cbn in Sr. destruct (Sr (Forall_inv Hc)).
  - subst r'. cbn in Sr'. destruct (Sr' (Forall_inv Ha)).
  - injection E as -> E. destruct (IH c r r' (Forall_inv_tail Ha) (Forall_inv_tail Hc) Sr Sr' E) as [-> ->]. split; reflexivity.
Qed.

(** After the mantissa: nothing or an exponent, of sign [up]. *)
Inductive tail : bytes -> option (bool * Z) -> Prop :=
| tl_none : tail [] None
| tl_up t k : digit_string t k -> tail (lit "e+" ++ t) (Some (true, k))
| tl_down t k : digit_string t k -> tail (lit "e-" ++ t) (Some (false, k)).
(** After the integral part: nothing or decimal places. *)
Inductive places : bytes -> option (Z * Z) -> Prop :=
| pl_none : places [] None
| pl_some f k : digit_string f k -> places (lit "." ++ f) (Some (k, zlen f)).

Definition scaled (x : R) (e : option (bool * Z)) : R :=
  match e with None => x | Some (true, k) => (x * powerRZ 10 k)%R | Some (false, k) => (x * powerRZ 10 (- k))%R end.
Definition fractional (n : Z) (f : option (Z * Z)) : R :=
  match f with None => IZR n | Some (k, l) => (IZR n + IZR k * powerRZ 10 (- l))%R end.

Lemma mantissa_parts s x : mantissa s x -> exists a n p f, s = a ++ p /\ read_nat a = Some n /\ places p f /\ x = fractional n f.
Proof.
  intros [a n H|a n f k H Hf].
  - exists a, n, [], None. rewrite app_nil_r. repeat split; [exact H|constructor].
  - exists a, n, (lit "." ++ f), (Some (k, zlen f)). repeat split; [exact H|constructor; exact Hf].
Qed.

Lemma magnitude_parts s x : magnitude s x -> exists a n p f t e, s = a ++ p ++ t /\ read_nat a = Some n /\ places p f /\ tail t e /\ x = scaled (fractional n f) e.
Proof.
  intros [m y H|m y t k H Ht|m y t k H Ht]; destruct (mantissa_parts m y H) as (a & n & p & f & -> & Ha & Hp & ->).
  - exists a, n, p, f, [], None. rewrite app_nil_r. repeat split; [exact Ha|exact Hp|constructor].
  - exists a, n, p, f, (lit "e+" ++ t), (Some (true, k)). rewrite <- app_assoc. repeat split; [exact Ha|exact Hp|constructor; exact Ht].
  - exists a, n, p, f, (lit "e-" ++ t), (Some (false, k)). rewrite <- app_assoc. repeat split; [exact Ha|exact Hp|constructor; exact Ht].
Qed.

Lemma tail_stops t e : tail t e -> stops t.
Proof. intros []; cbn; unfold dig; cbn; auto. Qed.
Lemma places_stops p f t e : places p f -> tail t e -> stops (p ++ t).
Proof. intros [] Ht; [exact (tail_stops t e Ht)|]; cbn; unfold dig; cbn; auto. Qed.

Lemma tail_fun t e e' : tail t e -> tail t e' -> e = e'.
Proof.
  intros H H'. inversion H as [E1|u k [_ K] E1|u k [_ K] E1]; subst; inversion H' as [E2|u' k' [_ K'] E2|u' k' [_ K'] E2]; subst; try discriminate; try reflexivity.
  - cbn [app lit] in *. congruence.
  - cbn [app lit] in *. congruence.
Qed.

Lemma places_fun p f t e p' f' t' e' : places p f -> tail t e -> places p' f' -> tail t' e' -> p ++ t = p' ++ t' -> f = f' /\ t = t'.
Proof.
  intros Hp Ht Hp' Ht' E. destruct Hp as [|u k [_ K]]; destruct Hp' as [|u' k' [_ K']].
  - split; [reflexivity|exact E].
  - exfalso. destruct Ht; discriminate E.
  - exfalso. destruct Ht'; discriminate E.
  - rewrite <- !app_assoc in E. apply app_inv_head in E.
    destruct (split_digits u u' t t' (digits_dig _ _ _ K) (digits_dig _ _ _ K') (tail_stops _ _ Ht) (tail_stops _ _ Ht') E) as [-> ->]. split; congruence.
Qed.

Lemma magnitude_fun s x y : magnitude s x -> magnitude s y -> x = y.
Proof.
  intros Hx Hy. destruct (magnitude_parts s x Hx) as (a & n & p & f & t & e & -> & Ha & Hp & Ht & ->).
  destruct (magnitude_parts _ y Hy) as (a' & n' & p' & f' & t' & e' & E & Ha' & Hp' & Ht' & ->).
  destruct (split_digits a a' (p ++ t) (p' ++ t') (nat_dig _ _ Ha) (nat_dig _ _ Ha') (places_stops _ _ _ _ Hp Ht) (places_stops _ _ _ _ Hp' Ht') E) as [-> E2].
  destruct (places_fun _ _ _ _ _ _ _ _ Hp Ht Hp' Ht' E2) as [-> ->]. rewrite (tail_fun _ _ _ Ht Ht'). congruence.
Qed.

(** A magnitude starts with a digit. *)
Lemma magnitude_head s x : magnitude s x -> exists c r, s = c :: r /\ dig c.
Proof.
  intros H. destruct (magnitude_parts s x H) as (a & n & p & f & t & e & -> & Ha & _). pose proof (nat_dig _ _ Ha) as D.
  destruct a as [|c a]; [discriminate Ha|]. exists c, (a ++ p ++ t). split; [reflexivity|exact (Forall_inv D)].
Qed.

Lemma number_text_fun neg neg' s x y : number_text neg s x -> number_text neg' s y -> neg = neg' /\ x = y.
Proof.
  assert (K : forall t z, magnitude (lit "-" ++ t) z -> False).
  { intros t z H. destruct (magnitude_head _ _ H) as (c & r & E & D). injection E as <- _. apply D. reflexivity. }
  intros H H'. destruct neg, neg'; cbn [number_text] in *.
  - destruct H as (t & -> & H). destruct H' as (t' & E & H'). apply app_inv_head in E. subst t'.
    split; [reflexivity|]. pose proof (magnitude_fun _ _ _ H H') as Q. rewrite <- (Ropp_involutive x), <- (Ropp_involutive y), Q. reflexivity.
  - destruct H as (t & -> & _). destruct (K _ _ H').
  - destruct H' as (t & -> & _). destruct (K _ _ H).
  - split; [reflexivity|]. exact (magnitude_fun _ _ _ H H').
Qed.

(** ... and is none of the texts of the others. *)
Lemma number_text_not neg s x : number_text neg s x -> s <> lit "nan" /\ s <> lit "-nan" /\ s <> lit "inf" /\ s <> lit "-inf".
Proof.
  intros H. assert (K : exists c r, (s = c :: r \/ s = x2d :: c :: r) /\ dig c).
  { destruct neg; cbn [number_text] in H.
    - destruct H as (t & -> & H). destruct (magnitude_head _ _ H) as (c & r & -> & D). exists c, r. split; [right; reflexivity|exact D].
    - destruct (magnitude_head _ _ H) as (c & r & -> & D). exists c, r. split; [left; reflexivity|exact D]. }
  destruct K as (c & r & [-> | ->] & D); repeat split; intros E; injection E; intros; subst c; apply D; reflexivity.
Qed.

From Flocq Require Import Core.Core IEEE754.Binary IEEE754.Bits.

(** The text [s] of a binary number, as C08_double and C08_float give it. *)
Definition text_of_float p e (x : binary_float p e) (s : bytes) : Prop :=
  (is_finite p e x = true /\ number_text (Bsign p e x) s (B2R p e x))
  \/ (is_nan p e x = true /\ s = (if Bsign p e x then lit "-nan" else lit "nan"))
  \/ (is_nan p e x = false /\ is_finite p e x = false /\ s = (if Bsign p e x then lit "-inf" else lit "inf")).

Lemma text_of_float_inj p e x y s : text_of_float p e x s -> text_of_float p e y s ->
  x = y \/ (is_nan p e x = true /\ is_nan p e y = true /\ Bsign p e x = Bsign p e y).
Proof.
  intros [[Fx Tx]|[[Nx Tx]|(Nx & Fx & Tx)]] [[Fy Ty]|[[Ny Ty]|(Ny & Fy & Ty)]].
  - left. destruct (number_text_fun _ _ _ _ _ Tx Ty) as [Es Ex]. exact (B2R_Bsign_inj p e x y Fx Fy Ex Es).
  - exfalso. pose proof (number_text_not _ _ _ Tx). destruct (Bsign p e y); tauto.
  - exfalso. pose proof (number_text_not _ _ _ Tx). destruct (Bsign p e y); tauto.
  - exfalso. pose proof (number_text_not _ _ _ Ty). destruct (Bsign p e x); tauto.
  - right. repeat split; [exact Nx|exact Ny|]. rewrite Tx in Ty. destruct (Bsign p e x), (Bsign p e y); try reflexivity; discriminate Ty.
  - exfalso. rewrite Tx in Ty. destruct (Bsign p e x), (Bsign p e y); discriminate Ty.
  - exfalso. pose proof (number_text_not _ _ _ Ty). destruct (Bsign p e x); tauto.
  - exfalso. rewrite Tx in Ty. destruct (Bsign p e x), (Bsign p e y); discriminate Ty.
  - left. rewrite Tx in Ty. destruct x as [sx|sx|sx px Hx|sx m ex Hx], y as [sy|sy|sy py Hy|sy m' ey Hy]; try discriminate.
    cbn [Bsign] in Ty. destruct sx, sy; try reflexivity; discriminate Ty.
Qed.

From Verif Require Import Blob BlobSpec RunSpec RunFacts Sim ArithFacts Arithm.

Lemma arith_text t b r rest : zlen r = sizeof t -> holds b (r ++ rest) -> fst (ArithExtractStr t b) = to_string_precise t (decode t r).
Proof.
  intros Hr Hb. assert (E : ExtractValue t (r ++ rest) = (Ok (decode t r), rest)).
  { assert (Hn : Z.to_nat (sizeof t) = length r) by (unfold zlen in Hr; lia).
    rewrite list_ExtractValue by (rewrite zlen_app; pose proof (zlen_nonneg rest); lia).
    rewrite Hn, firstn_app, skipn_app, Nat.sub_diag, firstn_all, skipn_all, app_nil_r. reflexivity. }
  destruct (run_transfer (ArithExtractStr t) (ArithExtractStr t) b (r ++ rest) (to_string_precise t (decode t r)) rest (sim_ArithExtractStr t) Hb) as (b' & E' & _).
  - unfold ArithExtractStr. rewrite (bind_ok _ _ _ _ _ E). reflexivity.
  - rewrite E'. reflexivity.
Qed.
