(** * What Options::parse accepts, and that it does *)
From Coq Require Import String Ascii ZArith Reals List Lia Bool.
From Verif Require Import Arith Mem FirModel IirModel Tables ResamplerModel AccuracyModel OptModel.
Import ListNotations.
Open Scope nat_scope.
Open Scope o_scope.

(** ** Strings *)
Lemma tail_0 s : tail 0 s = s.
Proof.
  unfold tail. rewrite Nat.sub_0_r. induction s as [|c s IH]; [reflexivity|]. cbn [String.length substring]. now rewrite IH.
Qed.
Lemma tail_S n c s : tail (S n) (String c s) = tail n s.
Proof. reflexivity. Qed.
Lemma tail_app u s : tail (String.length u) (u ++ s) = s.
Proof. induction u as [|c u IH]; [apply tail_0 | exact IH]. Qed.

(** a is opt=v for some v *)
Lemma assigned opt a :
  begins a opt && (match String.get (String.length opt) a with Some c => Ascii.eqb c "=" | None => false end) = true ->
  a = (opt ++ "=" ++ tail (String.length opt + 1) a)%string.
Proof.
  revert a. induction opt as [|c opt IH]; intros a H.
  - destruct a as [|d a]; [discriminate|]. cbn in H. destruct (Ascii.eqb_spec d "="); [subst d|discriminate].
    cbn [String.length Nat.add append]. now rewrite tail_S, tail_0.
  - destruct a as [|d a]; [discriminate|]. unfold begins in *. cbn [prefix String.length String.get] in H.
    destruct (ascii_dec c d) as [<-|]; [|discriminate]. cbn [String.length Nat.add append]. rewrite tail_S. f_equal. apply IH, H.
Qed.
Lemma assigned_conv opt v : begins (opt ++ "=" ++ v) opt &&
  (match String.get (String.length opt) (opt ++ "=" ++ v) with Some c => Ascii.eqb c "=" | None => false end) = true.
Proof.
  induction opt as [|c opt IH]; [reflexivity|]. unfold begins in *. cbn [prefix String.length String.get append] in *.
  destruct (ascii_dec c c); [exact IH | contradiction].
Qed.
Lemma assigned_tail opt v : tail (String.length opt + 1) (opt ++ "=" ++ v) = v.
Proof. induction opt as [|c opt IH]; [apply tail_0 | exact IH]. Qed.
Lemma assigned_not opt v : same (opt ++ "=" ++ v) opt = false.
Proof.
  unfold same. apply String.eqb_neq. induction opt as [|c opt IH]; [discriminate|]. intros H. injection H as H. contradiction.
Qed.

(** the part before the first '=' *)
Fixpoint name (a : string) : string :=
  match a with
  | EmptyString => EmptyString
  | String c r => if Ascii.eqb c "=" then EmptyString else String c (name r)
  end.
Lemma name_assigned opt v : name opt = opt -> name (opt ++ "=" ++ v) = opt.
Proof.
  induction opt as [|c opt IH]; [reflexivity|]. cbn [name append]. destruct (Ascii.eqb c "="); [discriminate|].
  intros H. injection H as H. f_equal. now apply IH.
Qed.

(** ** Arrays *)
Lemma get_at pre p l : get (pre ++ p :: l) (List.length pre) = Done p.
Proof. unfold get. now rewrite nth_error_app2, Nat.sub_diag by lia. Qed.
Lemma set_at pre p q l : set (pre ++ p :: l) (List.length pre) q = Done (pre ++ q :: l).
Proof. induction pre as [|x pre IH]; [reflexivity|]. cbn [app List.length set]. now rewrite IH. Qed.

(** the strings of an array, without the NULL pointers *)
Fixpoint somes (l : args) : list string :=
  match l with [] => [] | Some s :: l => s :: somes l | None :: l => somes l end.
Lemma somes_map l : somes (map Some l) = l.
Proof. induction l as [|x l IH]; cbn; [reflexivity | now rewrite IH]. Qed.

Lemma repeat_next k (l : args) : repeat None (S k) ++ l = repeat None k ++ None :: l.
Proof. induction k as [|k IH]; [reflexivity|]. cbn [repeat app] in *. now rewrite IH. Qed.

Lemma resort_ok l : forall fuel pre k, List.length l <= fuel ->
  exists j, resort fuel (List.length pre + k + List.length l) (pre ++ repeat None k ++ l) (List.length pre) (List.length pre + k) =
    Done (pre ++ map Some (somes l) ++ repeat None j, List.length pre + List.length (somes l)) /\
    j + List.length (somes l) = k + List.length l.
Proof.
  induction l as [|p l IH]; intros fuel pre k Hf.
  - exists k. rewrite Nat.add_0_r. destruct fuel; cbn [resort]; rewrite Nat.ltb_irrefl; cbn [somes map app List.length]; rewrite app_nil_r, !Nat.add_0_r; auto.
  - destruct fuel as [|fuel]; cbn [List.length] in Hf; [lia|]. cbn [resort List.length].
    replace (List.length pre + k <? List.length pre + k + S (List.length l)) with true by (symmetry; apply Nat.ltb_lt; lia).
    assert (EL : List.length pre + k = List.length (pre ++ repeat None k)) by (rewrite app_length, repeat_length; reflexivity).
    rewrite app_assoc, EL, get_at. cbn [andthen]. rewrite <- EL. destruct p as [s|].
    + rewrite <- app_assoc. destruct k as [|k].
      * cbn [repeat app]. rewrite set_at. cbn [andthen].
        replace (List.length pre + 1 <=? List.length pre + 0) with false by (symmetry; apply Nat.leb_gt; lia). cbn [andthen].
        destruct (IH fuel (pre ++ [Some s]) 0 ltac:(lia)) as (j & E & Hj). rewrite app_length in E. cbn [List.length repeat app] in E.
        rewrite <- app_assoc in E. cbn [app] in E.
        replace (List.length pre + 0 + S (List.length l)) with (List.length pre + 1 + 0 + List.length l) by lia.
        replace (List.length pre + 0 + 1) with (List.length pre + 1 + 0) by lia. rewrite E.
        exists j. cbn [somes map List.length app]. split; [|lia]. rewrite <- app_assoc. cbn [app]. do 2 f_equal. lia.
      * cbn [repeat app]. rewrite set_at. cbn [andthen].
        replace (List.length pre + 1 <=? List.length pre + S k) with true by (symmetry; apply Nat.leb_le; lia).
        assert (EL2 : List.length pre + S k = List.length ((pre ++ [Some s]) ++ repeat None k)) by (rewrite !app_length, repeat_length; cbn; lia).
        assert (EA : pre ++ Some s :: repeat None k ++ Some s :: l = ((pre ++ [Some s]) ++ repeat None k) ++ Some s :: l).
        { rewrite <- !app_assoc. reflexivity. }
        rewrite EA, EL2, set_at. cbn [andthen]. rewrite <- EL2.
        destruct (IH fuel (pre ++ [Some s]) (S k) ltac:(lia)) as (j & E & Hj). rewrite app_length in E. cbn [List.length] in E.
        replace (List.length pre + S k + S (List.length l)) with (List.length pre + 1 + S k + List.length l) by lia.
        replace (List.length pre + S k + 1) with (List.length pre + 1 + S k) by lia.
        replace (((pre ++ [Some s]) ++ repeat None k) ++ None :: l) with ((pre ++ [Some s]) ++ repeat None (S k) ++ l).
        2: { rewrite <- !app_assoc, repeat_next. reflexivity. }
        rewrite E. exists j. cbn [somes map List.length app]. split; [|lia]. rewrite <- app_assoc. cbn [app]. do 2 f_equal. lia.
    + destruct (IH fuel pre (S k) ltac:(lia)) as (j & E & Hj). exists j. cbn [somes]. split; [|lia].
      rewrite <- E. f_equal; [lia | | lia]. now rewrite <- app_assoc, repeat_next.
Qed.

Section Parse.
Context (atoi : string -> Z) (atof : string -> xdouble).
Notation table := (chain atoi atof).

(** ** What a command line means

    [reads l o r]: the arguments l, read with the settings o, give r: the arguments that are
    not options, and the new settings; or an exit code. *)
Definition keep (a : string) (r : outcome (list string * options)) : outcome (list string * options) :=
  match r with Done (l, o) => Done (a :: l, o) | _ => r end.
Definition matches (a opt : string) : Prop := a = opt \/ exists v, a = (opt ++ "=" ++ v)%string.

Inductive reads : list string -> options -> outcome (list string * options) -> Prop :=
| reads_nil o : reads [] o (Done ([], o))
| reads_help a l o : a = "--help"%string \/ a = "-h"%string -> reads (a :: l) o (Exit 0)
| reads_flag opt f l o r : In (opt, Flag f) table -> reads l (f o) r -> reads (opt :: l) o r
| reads_flag_value opt f v l o : In (opt, Flag f) table -> reads ((opt ++ "=" ++ v)%string :: l) o (Exit 1)
| reads_value opt f v l o o' r : In (opt, Arg f) table -> f v o = Done o' -> reads l o' r ->
    reads ((opt ++ "=" ++ v)%string :: l) o r
| reads_next opt f v l o o' r : In (opt, Arg f) table -> f v o = Done o' -> reads l o' r -> reads (opt :: v :: l) o r
| reads_bad_value opt f v l o c : In (opt, Arg f) table -> f v o = Exit c -> reads ((opt ++ "=" ++ v)%string :: l) o (Exit c)
| reads_bad_next opt f v l o c : In (opt, Arg f) table -> f v o = Exit c -> reads (opt :: v :: l) o (Exit c)
| reads_missing opt f o : In (opt, Arg f) table -> reads [opt] o (Exit 1)
| reads_other a l o r : a <> "--help"%string -> a <> "-h"%string -> (forall opt h, In (opt, h) table -> ~ matches a opt) ->
    reads l o r -> reads (a :: l) o (keep a r).

Lemma names opt h : In (opt, h) table -> name opt = opt.
Proof. cbn [chain In]. intros H. repeat (destruct H as [H|H]; [injection H as <- _; reflexivity|]). destruct H. Qed.
Lemma no_help opt h : In (opt, h) table -> opt <> "--help"%string /\ opt <> "-h"%string.
Proof. cbn [chain In]. intros H. repeat (destruct H as [H|H]; [injection H as <- _; split; discriminate|]). destruct H. Qed.
Lemma matches_name a opt h : In (opt, h) table -> matches a opt -> name a = opt.
Proof. intros H [->|[v ->]]; [eapply names | apply name_assigned; eapply names]; eassumption. Qed.
Lemma table_fun opt h h' : In (opt, h) table -> In (opt, h') table -> h = h'.
Proof.
  cbn [chain In]. intros H H'.
  repeat (destruct H as [H|H]; [injection H as <- <-; repeat (destruct H' as [H'|H']; [first [discriminate H' | injection H' as <-; reflexivity]|]); destruct H'|]).
  destruct H.
Qed.
Lemma handlers opt f v o : In (opt, Arg f) table -> (exists o', f v o = Done o') \/ exists c, f v o = Exit c.
Proof.
  cbn [chain In]. intros H.
  repeat (destruct H as [H|H]; [first [discriminate H | injection H as _ <-]; clear;
    unfold set_block_size, set_precision, set_freq_scan, set_frequency, set_threshold; cbv zeta;
    first [left; eexists; reflexivity |
      match goal with |- context [if ?c then _ else _] => destruct c end; first [left; eexists; reflexivity | right; eexists; reflexivity]]|]).
  destruct H.
Qed.

(** one argument *)
Lemma check_same argc pre a rest want : List.length pre + S (List.length rest) = argc ->
  check_arg argc (pre ++ Some a :: map Some rest) (List.length pre) a want =
  if want then match rest with
    | [] => Exit 1
    | v :: rest => Done (Some (pre ++ None :: None :: map Some rest, List.length pre + 1, Some v)) end
  else Done (Some (pre ++ None :: map Some rest, List.length pre, None)).
Proof.
  intros Hl. unfold check_arg. replace (List.length pre <? argc) with true by (symmetry; apply Nat.ltb_lt; lia). cbn [negb].
  rewrite get_at. cbn [andthen]. unfold same. rewrite String.eqb_refl. destruct want; cbn [andb negb].
  - destruct rest as [|v rest].
    + cbn in Hl. replace (List.length pre + 1 <? argc) with false by (symmetry; apply Nat.ltb_ge; lia). reflexivity.
    + cbn in Hl. replace (List.length pre + 1 <? argc) with true by (symmetry; apply Nat.ltb_lt; lia).
      rewrite set_at. cbn [andthen map].
      assert (EL : List.length pre + 1 = List.length (pre ++ [None])) by (rewrite app_length; reflexivity).
      replace (pre ++ None :: Some v :: map Some rest) with ((pre ++ [None]) ++ Some v :: map Some rest) by (rewrite <- app_assoc; reflexivity).
      rewrite EL, get_at. cbn [andthen]. rewrite set_at. cbn [andthen]. rewrite <- app_assoc. reflexivity.
  - now rewrite set_at.
Qed.
Lemma check_value argc pre opt v rest want : List.length pre + S (List.length rest) = argc ->
  check_arg argc (pre ++ Some (opt ++ "=" ++ v)%string :: map Some rest) (List.length pre) opt want =
  if want then Done (Some (pre ++ None :: map Some rest, List.length pre, Some v)) else Exit 1.
Proof.
  intros Hl. unfold check_arg. replace (List.length pre <? argc) with true by (symmetry; apply Nat.ltb_lt; lia). cbn [negb].
  rewrite get_at. cbn [andthen]. rewrite assigned_not, assigned_conv, assigned_tail, set_at. reflexivity.
Qed.
Lemma check_other argc pre a opt rest want : List.length pre + S (List.length rest) = argc -> ~ matches a opt ->
  check_arg argc (pre ++ Some a :: map Some rest) (List.length pre) opt want = Done None.
Proof.
  intros Hl N. unfold check_arg. replace (List.length pre <? argc) with true by (symmetry; apply Nat.ltb_lt; lia). cbn [negb].
  rewrite get_at. cbn [andthen]. unfold same. destruct (String.eqb_spec a opt) as [->|]; [destruct N; now left|].
  match goal with |- context [if ?c then _ else _] => destruct c eqn:E end; [|reflexivity].
  apply assigned in E. destruct N. right. eexists. exact E.
Qed.
Lemma matches_dec a opt : {a = opt} + {exists v, a = (opt ++ "=" ++ v)%string} + {~ matches a opt}.
Proof.
  destruct (string_dec a opt) as [->|N]; [left; left; reflexivity|].
  destruct (begins a opt && (match String.get (String.length opt) a with Some c => Ascii.eqb c "=" | None => false end)) eqn:E.
  - left. right. eexists. apply assigned, E.
  - right. intros [H|[v ->]]; [contradiction|]. rewrite assigned_conv in E. discriminate.
Qed.

Lemma try_ok argc pre a rest o : List.length pre + S (List.length rest) = argc -> forall l, incl l table ->
  let t := try l argc (pre ++ Some a :: map Some rest) (List.length pre) o in
  ((forall opt h, In (opt, h) l -> ~ matches a opt) /\ t = Done (pre ++ Some a :: map Some rest, List.length pre, o)) \/
  exists opt h, In (opt, h) table /\
    ((a = opt /\ match h with
       | Flag f => t = Done (pre ++ None :: map Some rest, List.length pre, f o)
       | Arg f => match rest with
           | [] => t = Exit 1
           | v :: rest' => t = (o' <- f v o; Done (pre ++ None :: None :: map Some rest', List.length pre + 1, o'))
           end
       end) \/
     exists v, a = (opt ++ "=" ++ v)%string /\ match h with
       | Flag f => t = Exit 1
       | Arg f => t = (o' <- f v o; Done (pre ++ None :: map Some rest, List.length pre, o'))
       end).
Proof.
  intros Hl. induction l as [|[opt h] l IH]; intros Hi t.
  - left. split; [intros opt h []|reflexivity].
  - assert (Hin : In (opt, h) table) by (apply Hi; now left). unfold t. cbn [try]. destruct (matches_dec a opt) as [[->|[v ->]]|N].
    + right. exists opt, h. split; [exact Hin|]. left. split; [reflexivity|]. rewrite check_same by exact Hl.
      destruct h as [f|f]; cbn [wants andthen]; [reflexivity|]. destruct rest as [|v rest]; reflexivity.
    + right. exists opt, h. split; [exact Hin|]. right. exists v. split; [reflexivity|]. rewrite check_value by exact Hl.
      destruct h as [f|f]; cbn [wants andthen]; reflexivity.
    + rewrite check_other by assumption. cbn [andthen]. destruct (IH ltac:(intros x Hx; apply Hi; now right)) as [[N' E]|E].
      * left. split; [|exact E]. intros opt' h' [H|H]; [injection H as <- _; exact N | now apply (N' opt' h')].
      * right. exact E.
Qed.

(** the whole loop: it never goes wrong, and does what [reads] says *)
Lemma scan_ok n : forall rest fuel pre o, List.length rest <= n -> List.length rest <= fuel ->
  exists r, reads rest o r /\
    match r with
    | Done (l, o') => exists marks, scan_args atoi atof fuel (List.length pre + List.length rest) (pre ++ map Some rest) (List.length pre) o = Done (pre ++ marks, o') /\
        somes marks = l /\ List.length marks = List.length rest
    | Exit c => scan_args atoi atof fuel (List.length pre + List.length rest) (pre ++ map Some rest) (List.length pre) o = Exit c
    | Fault _ => False
    end.
Proof.
  induction n as [|n IH]; intros rest fuel pre o Hn Hf.
  { destruct rest; cbn in Hn; [|lia]. exists (Done ([], o)). split; [constructor|]. exists []. rewrite Nat.add_0_r. destruct fuel; cbn [scan_args]; rewrite Nat.ltb_irrefl; auto. }
  destruct rest as [|a rest].
  { exists (Done ([], o)). split; [constructor|]. exists []. rewrite Nat.add_0_r. destruct fuel; cbn [scan_args]; rewrite Nat.ltb_irrefl; auto. }
  cbn [List.length] in *. destruct fuel as [|fuel]; [lia|]. cbn [scan_args map].
  replace (List.length pre <? List.length pre + S (List.length rest)) with true by (symmetry; apply Nat.ltb_lt; lia).
  rewrite get_at. cbn [andthen str]. destruct (same a "--help" || same a "-h") eqn:EH.
  { exists (Exit 0). split; [|reflexivity]. apply reads_help. unfold same in EH. apply orb_prop in EH. destruct EH as [E|E]; apply String.eqb_eq in E; auto. }
  apply orb_false_elim in EH. destruct EH as [EH1 EH2]. unfold same in EH1, EH2. apply String.eqb_neq in EH1, EH2.
  (* continue after one or two cells *)
  assert (NX : forall q rest' o' i, rest' = rest \/ (exists v, rest = v :: rest') -> List.length pre + S (List.length rest) = List.length (pre ++ q) + List.length rest' ->
    List.length q = S i -> exists r, reads rest' o' r /\ match r with
      | Done (l, o'') => exists marks, scan_args atoi atof fuel (List.length pre + S (List.length rest)) (pre ++ q ++ map Some rest') (List.length pre + i + 1) o' = Done (pre ++ q ++ marks, o'') /\
          somes marks = l /\ List.length (q ++ marks) = S (List.length rest)
      | Exit c => scan_args atoi atof fuel (List.length pre + S (List.length rest)) (pre ++ q ++ map Some rest') (List.length pre + i + 1) o' = Exit c
      | Fault _ => False end).
  { intros q rest' o' i Hr Hl Hi.
    assert (Hs : List.length rest' <= n /\ List.length rest' <= fuel) by (destruct Hr as [->|[v ->]]; cbn [List.length] in *; lia).
    destruct (IH rest' fuel (pre ++ q) o' (proj1 Hs) (proj2 Hs)) as (r & R & Q). exists r. split; [exact R|].
    rewrite Hl. replace (List.length pre + i + 1) with (List.length (pre ++ q)) by (rewrite app_length; lia).
    rewrite app_assoc. destruct r as [[l o'']|c|f]; [|exact Q|exact Q]. destruct Q as (marks & E & S1 & L). exists marks. rewrite app_assoc. split; [exact E|]. split; [exact S1|].
    rewrite app_length in *. lia. }
  destruct (try_ok (List.length pre + S (List.length rest)) pre a rest o eq_refl table (incl_refl _)) as [[N E]|(opt & h & Hin & [[-> E]|(v & -> & E)])].
  - (* not an option *)
    cbn zeta in E. rewrite E. cbn [andthen].
    destruct (NX [Some a] rest o 0 (or_introl eq_refl) ltac:(rewrite app_length; cbn; lia) eq_refl) as (r & R & Q). exists (keep a r). split; [now apply reads_other|].
    rewrite Nat.add_0_r in Q. cbn [app] in Q. destruct r as [[l o'']|c|f]; cbn [keep]; [|exact Q|exact Q]. destruct Q as (marks & Q & S1 & L). exists (Some a :: marks).
    split; [exact Q|]. split; [cbn [somes]; now rewrite S1 | exact L].
  - destruct h as [f|f].
    + cbn zeta in E. rewrite E. cbn [andthen].
      destruct (NX [None] rest (f o) 0 (or_introl eq_refl) ltac:(rewrite app_length; cbn; lia) eq_refl) as (r & R & Q). exists r. split; [eapply reads_flag; eassumption|].
      rewrite Nat.add_0_r in Q. cbn [app] in Q. destruct r as [[l o'']|c|g]; [|exact Q|exact Q]. destruct Q as (marks & Q & S1 & L). exists (None :: marks). auto.
    + destruct rest as [|v rest]; cbn zeta in E; rewrite E.
      * exists (Exit 1). split; [eapply reads_missing; eassumption | reflexivity].
      * destruct (handlers opt f v o Hin) as [[o' Eo]|[c Eo]]; rewrite Eo; cbn [andthen].
        -- destruct (NX [None; None] rest o' 1 (or_intror (ex_intro _ v eq_refl)) ltac:(rewrite app_length; cbn; lia) eq_refl) as (r & R & Q).
           exists r. split; [eapply reads_next; eassumption|]. cbn [app] in Q. cbn [List.length] in *.
           destruct r as [[l o'']|c|g]; [|exact Q|exact Q]. destruct Q as (marks & Q & S1 & L). exists (None :: None :: marks). auto.
        -- exists (Exit c). split; [eapply reads_bad_next; eassumption | reflexivity].
  - destruct h as [f|f]; cbn zeta in E; rewrite E.
    + exists (Exit 1). split; [eapply reads_flag_value; eassumption | reflexivity].
    + destruct (handlers opt f v o Hin) as [[o' Eo]|[c Eo]]; rewrite Eo; cbn [andthen].
      * destruct (NX [None] rest o' 0 (or_introl eq_refl) ltac:(rewrite app_length; cbn; lia) eq_refl) as (r & R & Q). exists r. split; [eapply reads_value; eassumption|].
        rewrite Nat.add_0_r in Q. cbn [app] in Q. destruct r as [[l o'']|c|g]; [|exact Q|exact Q]. destruct Q as (marks & Q & S1 & L). exists (None :: marks). auto.
      * exists (Exit c). split; [eapply reads_bad_value; eassumption | reflexivity].
Qed.

Lemma parse_ok prog l o :
  exists r, reads l o r /\
    match r with
    | Done (rest, o') => exists j, parse atoi atof (Some prog :: map Some l) o = Done (Some prog :: map Some rest ++ repeat None j, S (List.length rest), o')
    | Exit c => parse atoi atof (Some prog :: map Some l) o = Exit c
    | Fault _ => False
    end.
Proof.
  destruct (scan_ok (List.length l) l (S (List.length l)) [Some prog] o ltac:(lia) ltac:(lia)) as (r & R & Q).
  exists r. split; [exact R|]. unfold parse. cbn [List.length app] in *. rewrite map_length. destruct r as [[rest o']|c|f]; [| |destruct Q].
  - destruct Q as (marks & E & S1 & L). cbn [Nat.add] in E. rewrite E. cbn [andthen].
    destruct (resort_ok marks (S (List.length l)) [Some prog] 0 ltac:(lia)) as (j & E2 & _). cbn [List.length Nat.add repeat app] in E2.
    rewrite <- L, S1 in *. rewrite E2. cbn [andthen fst snd]. exists j. reflexivity.
  - cbn [Nat.add] in Q. rewrite Q. reflexivity.
Qed.

(** the meaning of a command line is unique *)
Lemma assigned_inj x h y h' v w : In (x, h) table -> In (y, h') table -> (x ++ "=" ++ v)%string = (y ++ "=" ++ w)%string -> x = y /\ h = h' /\ v = w.
Proof.
  intros H H' E. assert (x = y).
  { rewrite <- (name_assigned x v), <- (name_assigned y w) by (eapply names; eassumption). now rewrite E. }
  subst y. split; [reflexivity|]. split; [eapply table_fun; eassumption|].
  rewrite <- (assigned_tail x v), <- (assigned_tail x w). now rewrite E.
Qed.
Lemma assigned_opt x h y h' v : In (x, h) table -> In (y, h') table -> (x ++ "=" ++ v)%string <> y.
Proof.
  intros H H' E. assert (Q : x = y).
  { rewrite <- (name_assigned x v) by (eapply names; eassumption). rewrite E. eapply names; eassumption. }
  rewrite <- Q in E. pose proof (assigned_not x v) as N. rewrite E in N. unfold same in N. now rewrite String.eqb_refl in N.
Qed.
Lemma assigned_help x h v : In (x, h) table -> (x ++ "=" ++ v)%string <> "--help"%string /\ (x ++ "=" ++ v)%string <> "-h"%string.
Proof.
  intros H. destruct (no_help _ _ H) as [N1 N2].
  split; intros E; [apply N1 | apply N2]; rewrite <- (name_assigned x v) by (eapply names; eassumption); now rewrite E.
Qed.

Ltac clash :=
  match goal with
  | H : In ("--help"%string, _) table |- _ => destruct (no_help _ _ H); congruence
  | H : In ("-h"%string, _) table |- _ => destruct (no_help _ _ H); congruence
  | H : In (?x, _) table, E : (?x ++ String "=" ?v)%string = "--help"%string |- _ => destruct (proj1 (assigned_help _ _ v H) E)
  | H : In (?x, _) table, E : (?x ++ String "=" ?v)%string = "-h"%string |- _ => destruct (proj2 (assigned_help _ _ v H) E)
  | H : In (?x, _) table, N : forall opt h, In (opt, h) table -> ~ matches _ opt |- _ =>
      exfalso; apply (N _ _ H); first [left; reflexivity | right; eexists; reflexivity | left; congruence | right; eexists; eassumption | right; eexists; symmetry; eassumption]
  | H : In (?x, _) table, H' : In (?y, _) table, E : (?x ++ String "=" ?v)%string = ?y |- _ => destruct (assigned_opt _ _ _ _ v H H' E)
  | H : In (?x, _) table, H' : In (?y, _) table, E : (?x ++ String "=" ?v)%string = (?y ++ String "=" ?w)%string |- _ =>
      destruct (assigned_inj _ _ _ _ v w H H' E) as (? & EQ & ?); clear E; try discriminate EQ; subst; try (injection EQ as ?; subst)
  | H : In ((?x ++ String "=" ?v)%string, _) table, H' : In (?x, _) table |- _ => destruct (assigned_opt _ _ _ _ v H' H eq_refl)
  | H : ?t = Done ?a, H' : ?t = Done ?b |- _ => assert_fails (constr_eq a b); assert (a = b) by congruence; subst b
  | H : In (?x, ?h) table, H' : In (?x, ?h') table |- _ =>
      assert_fails (constr_eq h h'); pose proof (table_fun _ _ _ H H') as EQ; first [discriminate EQ | injection EQ as ->]
  end.

Lemma reads_fun l o r : reads l o r -> forall r', reads l o r' -> r = r'.
Proof.
  induction 1; intros r' H'; inversion H'; cbn [append] in *; subst;
    repeat match goal with H : _ \/ _ |- _ => destruct H; subst end; try reflexivity; try congruence;
    try (exfalso; congruence); repeat clash;
    try congruence; try (match goal with IH : forall r', reads _ _ r' -> _ = r' |- _ => first [apply IH; congruence | apply IH; assumption | f_equal; apply IH; assumption] end).
Qed.
End Parse.
