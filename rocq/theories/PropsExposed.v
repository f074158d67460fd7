(** C75-C77: the substitutions that can be written in text; Command; PythonExpression,
    FindExecutable and FileContent.  Statements use Exposed.v and SpecExposed.v. *)
From Coq Require Import ssreflect.
From Verif Require Import SpecExposed ExposedFacts SubstTextFacts SubstFacts ExWorld.

(** ** C75 *)
(** What a text is parsed to: the reading of the grammar, with every $(name arguments) the
    substitution that this writes. *)
Theorem C75_text s xs : parse_text s = Ok xs <-> exists l, read_text s = Ok l /\ Forall2 means l xs.
Proof. exact (parse_text_law s xs). Qed.
Print Assumptions C75_text.
(** A name writes at most one substitution with given arguments. *)
Theorem C75_one name args x y : writes name args x -> writes name args y -> x = y.
Proof. intros (f & Hf & Hx)%exposed_iff (g & Hg & Hy)%exposed_iff. congruence. Qed.
Print Assumptions C75_one.
(** Every substitution with arguments that are texts can be written, as long as no argument ends
    with a backslash; arguments may be empty. *)
Definition text_arg (t : string) : list subst := match t with EmptyString => [] | _ => [SText t] end.
Theorem C75_writable name ts x : identifier name -> Forall (fun t => ~ ends_bs t) ts -> writes name (map text_arg ts) x -> exists s, parse_text s = Ok [x].
Proof.
  intros Hn Ht Hw. set (arg t := match t with EmptyString => [] | _ => [NText t] end).
  assert (Ha : Forall2 (Forall2 means) (map arg ts) (map text_arg ts)).
  { clear. induction ts as [|t ts IH]; [constructor|]. cbn [map]. constructor; [|done]. destruct t; repeat constructor. }
  destruct (proj2 (writable_law [NSub name (map arg ts)])) as [s Hs].
  { right. split; [done|]. constructor; [done| |constructor]. clear -Ht. induction Ht as [|t ts Ht _ IH]; [constructor|]. cbn [map]. apply wa_quoted; [| |done].
    - destruct t; [constructor|]. apply w_text; [done..|constructor].
    - intros (l & u & E & Hu). destruct t; [by destruct l|]. destruct l as [|? [|? ?]]; [|done|done]. injection E as <-. done. }
  exists s. apply parse_text_law. eexists. split; [exact Hs|]. constructor; [|constructor]. by apply me_sub with (map text_arg ts).
Qed.
Print Assumptions C75_writable.
(** So every launch configuration can be read by a text, unless its name ends with a backslash. *)
Theorem C75_configuration (w : world) n : n <> "" -> ~ ends_bs n -> exists s xs, parse_text s = Ok xs /\
  forall c, perform_substitutions w xs c = (c, match lc c !! n with Some v => Ok v | None => Exn XSubst end).
Proof.
  intros Hn Hb. destruct (C75_writable "var" [n] (SLaunchConfig [SText n] None)) as [s Hs]; [by exists "v"%char, "ar"|by constructor|destruct n; [done|constructor]|].
  exists s, [SLaunchConfig [SText n] None]. split; [done|]. intros c. cbn. rewrite /bindS /retS. destruct n as [|a n]; [done|]. cbn. rewrite StrFacts.str_app_nil. destruct (lc c !! _) as [v|]; cbn; [by rewrite StrFacts.str_app_nil|done].
Qed.
Print Assumptions C75_configuration.
(** Finding: any and all cannot be used in text: a text in which one of them occurs, however deep
    and with whatever arguments, is rejected. *)
Theorem C75_any_all_refuted name s l n xs : name = "any" \/ name = "all" -> read_text s = Ok l -> In n l -> mentions name n -> parse_text s <> Ok xs.
Proof. intros Hname. apply unwritten_text. by destruct Hname as [-> | ->]; intros vs x; inversion 1. Qed.
Print Assumptions C75_any_all_refuted.
(** Finding: what comes after the first part of the modules of eval is dropped. *)
Theorem C75_eval_modules_refuted : exists s s' xs, read_text s <> read_text s' /\ parse_text s = Ok xs /\ parse_text s' = Ok xs.
Proof. exists "$(eval 1 math)", "$(eval 1 math$(var no_module))". eexists. by vm_compute. Qed.
Print Assumptions C75_eval_modules_refuted.
Example C75_ex : parse_text "$(eval '1 + $(var x 2)' 'math, os') a\$(env" =
  Ok [SFun fid_eval [[SText "math"]; [SText "os"]; [SText "1 + "; SLaunchConfig [SText "x"] (Some [SText "2"])]]; SText " a$(env"].
Proof. reflexivity. Qed.
Example C75_ex_if : parse_text "$(if $(not $(env A '')) yes)" = Ok [SIfElse [SNot [SEnvVar [SText "A"] (Some [])]] [SText "yes"] [SText ""]].
Proof. reflexivity. Qed.
Example C75_ex_arity : map parse_text ["$(var)"; "$(var a b c)"; "$(dirname x)"; "$(if x)"; "$(any true)"] = repeat (Exn XType) 5.
Proof. reflexivity. Qed.

(** ** C76 *)
(** A Command gives a text exactly if its command and on_stderr can be performed (in this order),
    the command can be split and is not empty, the mode is one of the four, the program exits
    with 0, and, in mode fail, has written nothing to stderr.  The text is what the program wrote
    to stdout, in mode capture with what it wrote to stderr, with newlines as line ends.  It was
    run once, with these arguments; a warning is logged in mode warn if there was stderr output. *)
Theorem C76_output (w : world) prog decodes command on_stderr c c' runs warned s : (forall t, decodes t = true) ->
  perform_command w prog decodes command on_stderr c = (c', {| cm_runs := runs; cm_warned := warned; cm_result := Ok s |}) <->
  exists argv mode out t, ready w command on_stderr c c' argv mode /\ In mode modes /\ argv <> [] /\ prog argv = RExits 0 out /\ (mode = "fail" -> ~ complains out) /\
    output (String.eqb mode "capture") out t /\ newlines t s /\ runs = [(argv, String.eqb mode "capture")] /\ (warned = true <-> mode = "warn" /\ complains out).
Proof. intros Hd. exact (command_ok w prog decodes Hd command on_stderr c c' runs warned s). Qed.
Print Assumptions C76_output.
(** It is a SubstitutionFailure if the mode is another (and then nothing is run), the program is
    not found or exits with another code, or has written to stderr in mode fail. *)
Theorem C76_failure (w : world) prog decodes command on_stderr c c' argv mode : (forall t, decodes t = true) -> ready w command on_stderr c c' argv mode ->
  ~ In mode modes \/ In mode modes /\ argv <> [] /\ (prog argv = RNotFound \/ exists code out, prog argv = RExits code out /\ (code <> 0%Z \/ mode = "fail" /\ complains out)) ->
  exists runs, perform_command w prog decodes command on_stderr c = (c', {| cm_runs := runs; cm_warned := false; cm_result := Exn XSubst |}) /\ (~ In mode modes -> runs = []).
Proof. intros Hd. exact (command_fails w prog decodes Hd command on_stderr c c' argv mode). Qed.
Print Assumptions C76_failure.
(** Whatever happens, it is run at most once, and only as asked. *)
Theorem C76_runs (w : world) prog decodes command on_stderr c c' d : perform_command w prog decodes command on_stderr c = (c', d) ->
  (exists argv mode, ready w command on_stderr c c' argv mode /\ In mode modes /\ argv <> [] /\ cm_runs d = [(argv, String.eqb mode "capture")]) \/
  cm_runs d = [] /\ cm_warned d = false /\ forall s, cm_result d <> Ok s.
Proof. exact (command_runs w prog decodes command on_stderr c c' d). Qed.
Print Assumptions C76_runs.
(** What line ends become is determined. *)
Theorem C76_newlines s : exists t, newlines s t /\ forall t', newlines s t' -> t' = t.
Proof. exists (universal s). split; [by apply newlines_iff|]. by intros t' <-%newlines_iff. Qed.
Print Assumptions C76_newlines.
(** Finding: not every failure is a SubstitutionFailure: a command that may not be executed, an
    empty command, quotes that are not closed, output that is not text. *)
Theorem C76_other_failures_refuted (w : world) (c : ctx) :
  (forall e, perform_command w (fun _ => RRaises e) (fun _ => true) [SText "ls"] [SText "ignore"] c = (c, {| cm_runs := [(["ls"], false)]; cm_warned := false; cm_result := Exn e |})) /\
  (forall prog decodes, perform_command w prog decodes [SText " "] [SText "ignore"] c = (c, {| cm_runs := []; cm_warned := false; cm_result := Exn XIndex |})) /\
  (forall prog decodes, perform_command w prog decodes [SText "echo 'a"] [SText "ignore"] c = (c, {| cm_runs := []; cm_warned := false; cm_result := Exn XValue |})) /\
  (forall out, perform_command w (fun _ => RExits 0 out) (fun _ => false) [SText "ls"] [SText "ignore"] c = (c, {| cm_runs := [(["ls"], false)]; cm_warned := false; cm_result := Exn XValue |})).
Proof. by repeat split. Qed.
Print Assumptions C76_other_failures_refuted.
Definition ex_prog (argv : list string) : ran :=
  match argv with
  | ["both"; x] => RExits 0 [(false, "a"); (true, x); (false, String "b" (String cr (String nl "")))]
  | ["false"] => RExits 1 []
  | _ => RNotFound
  end.
Definition ex_command (t m : string) : command_done := snd (perform_command w0 ex_prog (fun _ => true) [SText t] [SText m] c0).
Example C76_ex : map (fun m => (cm_result (ex_command "both 'x y'" m), cm_warned (ex_command "both 'x y'" m))) ["fail"; "ignore"; "warn"; "capture"; "other"] =
  [(Exn XSubst, false); (Ok ("ab" ++ String nl "")%string, false); (Ok ("ab" ++ String nl "")%string, true); (Ok ("ax yb" ++ String nl "")%string, false); (Exn XSubst, false)].
Proof. reflexivity. Qed.
Example C76_ex_fails : map (fun t => cm_result (ex_command t "ignore")) ["false"; "nope"; "both ''"] = [Exn XSubst; Exn XSubst; Ok ("ab" ++ String nl "")%string].
Proof. reflexivity. Qed.

(** ** C77 *)
(** A PythonExpression imports the modules its names say, in order, then performs the expression
    and evaluates it; a name stands for what the last module gives that gives it. *)
Theorem C77_expression (w : world) {V} import (eval : string -> gmap string V -> res string) expression modules c c1 c2 names ms t :
  performed w modules c c1 names -> Forall2 (fun n m => import n = Ok m) names ms -> perform_substitutions w expression c1 = (c2, Ok t) ->
  exists locals, perform_eval w import eval expression modules c = (c2, eval t locals) /\ forall n v, locals !! n = Some v <-> visible ms n v.
Proof.
  intros H1 H2 H3. exists (expression_locals ms). split; [|intros n v; apply locals_visible].
  apply each_performed in H1. apply mapm_Forall2 in H2. rewrite /perform_eval H1. rewrite /mbind /res_mbind /= H2 H3 //.
Qed.
Print Assumptions C77_expression.
(** Without math in the modules only the names of modules are known. *)
Theorem C77_only_modules {V} (ms : list (pmodule V)) n v : (forall m, In m ms -> pm_name V m <> "math") -> visible ms n v -> exists m, In m ms /\ pm_name V m = n /\ pm_self V m = v.
Proof.
  intros H (pre & m & post & -> & [[-> ->]|(_ & E & _)] & _); [exists m; split; [|done]; apply in_app_iff; right; by left|]. destruct (H m); [|done]. apply in_app_iff. right. by left.
Qed.
Print Assumptions C77_only_modules.
(** A module that cannot be imported: its exception, and the expression is not performed. *)
Theorem C77_import_fails (w : world) {V} import (eval : string -> gmap string V -> res string) expression modules c c1 pre n post ms e :
  performed w modules c c1 (pre ++ n :: post) -> Forall2 (fun n m => import n = Ok m) pre ms -> import n = Exn e ->
  perform_eval w import eval expression modules c = (c1, Exn e).
Proof.
  intros H1 H2 H3. apply each_performed in H1. rewrite /perform_eval H1. cbv [mbind res_mbind]. cbn [res_bind]. by rewrite (mapm_fail import pre n post ms e H2 H3).
Qed.
Print Assumptions C77_import_fails.
(** Finding: a module that is asked for by a name with dots is not known by it in the expression. *)
Theorem C77_dotted_refuted : ~ (forall V (import : string -> res (pmodule V)) name m, import name = Ok m -> exists v, visible [m] name v).
Proof.
  intros H. destruct (H nat (fun _ => Ok {| pm_name := "posixpath"; pm_vars := ∅; pm_self := 0 |}) "os.path" _ eq_refl) as (v & pre & m & post & E & Hg & _).
  destruct pre as [|? [|? ?]]; [|done|done]. injection E as <- _. by destruct Hg as [[? _]|(_ & ? & _)].
Qed.
Print Assumptions C77_dotted_refuted.
(** Finding: names of math hide modules that were asked for before it. *)
Theorem C77_hidden_refuted : ~ (forall V (ms : list (pmodule V)) m, In m ms -> (forall m', In m' ms -> pm_name V m' = pm_name V m -> m' = m) -> visible ms (pm_name V m) (pm_self V m)).
Proof.
  intros H. set (e := {| pm_name := "e"; pm_vars := ∅; pm_self := 1 |}). set (math := {| pm_name := "math"; pm_vars := {["e" := 2]}; pm_self := 3 |}).
  assert (Hv : visible [e; math] "e" 1) by (apply (H nat [e; math] e); [by left|]; intros m' [<-|[<-|[]]]; done).
  apply locals_visible in Hv. by vm_compute in Hv.
Qed.
Print Assumptions C77_hidden_refuted.
(** FindExecutable and FileContent: what is found, or a SubstitutionFailure; other exceptions of
    reading go through. *)
Theorem C77_find (w : world) which name c c' n : perform_substitutions w name c = (c', Ok n) ->
  (forall p, perform_find w which name c = (c', Ok p) <-> which n = Some p) /\ (perform_find w which name c = (c', Exn XSubst) <-> which n = None).
Proof. intros H. rewrite /perform_find H. cbv [mbind res_mbind]. cbn [res_bind]. destruct (which n) as [q|]; (split; [intros p|]); split; congruence. Qed.
Print Assumptions C77_find.
Theorem C77_content (w : world) read path c c' p : perform_substitutions w path c = (c', Ok p) ->
  perform_content w read path c = (c', match read p with Some r => r | None => Exn XSubst end).
Proof. intros H. by rewrite /perform_content H. Qed.
Print Assumptions C77_content.
Definition ex_import (n : string) : res (pmodule string) :=
  if String.eqb n "math" then Ok {| pm_name := "math"; pm_vars := {["pi" := "3.14"]}; pm_self := "<math>" |}
  else if String.eqb n "os" then Ok {| pm_name := "os"; pm_vars := {["sep" := "/"]}; pm_self := "<os>" |} else Exn (XUser 0).
Definition ex_eval (t : string) (l : gmap string string) : res string := match l !! t with Some v => Ok v | None => Exn (XUser 1) end.
Example C77_ex : map (fun e => snd (perform_eval w0 ex_import ex_eval [SText e] [SText "math"; SText "os"] c0)) ["pi"; "math"; "os"; "sep"] =
  [Ok "3.14"; Ok "<math>"; Ok "<os>"; Exn (XUser 1)].
Proof. reflexivity. Qed.
