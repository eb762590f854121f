(** * Properties C56-C59: the xarray wrapper *)
From Coq Require Import List ZArith Bool String Lia.
From Verif Require Import Base Num NumF64 NumList Wrapper_model Wrapper_spec Wrapper_proofs Wrapper_proofs2 Wrapper_proofs3.
Import ListNotations.
Local Open Scope nat_scope.
Local Notation length := List.length.
Local Open Scope string_scope.

(** ** C56 *)
Theorem C56_merge_is_python_binding : forall (A : Type) (params : list (param A)) args kwargs vs,
  NoDup (map fst kwargs) -> binds params args kwargs vs -> map snd (get_new_args_dict params args kwargs) = vs.
Proof. exact @merge_is_binding. Qed.
Print Assumptions C56_merge_is_python_binding.

(** the declarative binding is the one of the modelled Python call *)
Theorem C56_python_call : forall (A : Type) (params : list (param A)) args kwargs vs,
  NoDup (map fst params) -> NoDup (map fst kwargs) -> (py_bind params args kwargs = Ok vs <-> binds params args kwargs vs).
Proof. exact @py_bind_correct. Qed.
Print Assumptions C56_python_call.

(** def g(a, b, c=30, d=40) called as g(1, c=3, b=2) *)
Definition sig4 : list (param Z) := [("a", None); ("b", None); ("c", Some (Plain 30%Z)); ("d", Some (Plain 40%Z))].
Example C56_case : map snd (get_new_args_dict sig4 [Plain 1%Z] [("c", Plain 3%Z); ("b", Plain 2%Z)]) = [Plain 1%Z; Plain 2%Z; Plain 3%Z; Plain 40%Z].
Proof. reflexivity. Qed.
Example C56_case_python : py_bind sig4 [Plain 1%Z] [("c", Plain 3%Z); ("b", Plain 2%Z)] = Ok [Plain 1%Z; Plain 2%Z; Plain 3%Z; Plain 40%Z].
Proof. reflexivity. Qed.
Example C56_case_premises : exists vs, binds sig4 [Plain 1%Z] [("c", Plain 3%Z); ("b", Plain 2%Z)] vs.
Proof.
  eexists. apply C56_python_call; [| |reflexivity]; cbn; repeat constructor; cbn; intuition discriminate.
Qed.

(** ** C57 *)
Theorem C57_unknown_keyword_ignored : forall (A : Type) (dA : A) f (params : list (param A)) args kw vs k v,
  NoDup (map fst params) -> NoDup (map fst kw) -> binds params args kw vs -> Exists timed vs ->
  (forall d, ~ In (k, d) params) -> inner dA f params args ((k, v) :: kw) = inner dA f params args kw.
Proof. exact @unknown_keyword. Qed.
Print Assumptions C57_unknown_keyword_ignored.

Theorem C57_given_twice_keyword_ignored : forall (A : Type) (dA : A) f (params : list (param A)) args kw vs i d k v,
  NoDup (map fst params) -> NoDup (map fst kw) -> binds params args kw vs -> Exists timed vs ->
  i < length args -> get (EmptyString, None) params i = (k, d) -> inner dA f params args ((k, v) :: kw) = inner dA f params args kw.
Proof. exact @given_twice. Qed.
Print Assumptions C57_given_twice_keyword_ignored.

Theorem C57_surplus_ignored : forall (A : Type) (dA : A) f (params : list (param A)) args kw vs extra,
  NoDup (map fst kw) -> binds params args kw vs -> Exists timed vs ->
  length args = length params -> inner dA f params (args ++ extra) kw = inner dA f params args kw.
Proof. exact @surplus. Qed.
Print Assumptions C57_surplus_ignored.

(** a required argument that is missing reaches the function as inspect.Parameter.empty *)
Theorem C57_missing_passed_on : forall (A : Type) (dA : A) f (params : list (param A)) args kw i k,
  i < length params -> length args <= i -> get (EmptyString, None) params i = (k, None) ->
  ~ (exists v, In (k, v) kw) -> Exists timed args -> length args <= length params ->
  exists vs, length vs = length params /\ get Empty vs i = Empty /\ (forall j, j < length args -> get Empty vs j = get Empty args j) /\
  inner dA f params args kw = inner dA f params vs [].
Proof. exact @missing. Qed.
Print Assumptions C57_missing_passed_on.

Theorem C57_without_time_rejected : forall (A : Type) (dA : A) f (params : list (param A)) args kw,
  NoDup (map fst params) -> NoDup (map fst kw) ->
  Forall (fun v => ~ timed v) args -> (forall k v, In (k, v) kw -> ~ timed v) -> (forall k v, In (k, Some v) params -> ~ timed v) ->
  (forall vs, ~ binds params args kw vs) -> inner dA f params args kw = Err TypeError.
Proof. exact @untimed_rejected. Qed.
Print Assumptions C57_without_time_rejected.

(** def add(x, k): return x + k, on a time series and on a number *)
Definition add_func : func Z := fun xs => match xs with
  | [Series l; Plain k] => Ok (RSeries (map (fun x => (x + k)%Z) l))
  | [Plain x; Plain k] => Ok (RScalar (x + k)%Z)
  | [Series l; Empty] => Ok (RSeries l)          (* a function that does not look at k *)
  | _ => Err TypeError end.
Definition sig2 : list (param Z) := [("x", None); ("k", None)].
Definition x2 : val Z := DA [("cml", 2)] (Some 3) [1; 2; 3; 40; 50; 60]%Z.
Example C57_case_unknown : inner 0%Z add_func sig2 [x2; Plain 1%Z] [("kk", Plain 9%Z)] = Ok (RDA [("cml", 2)] 3 [2; 3; 4; 41; 51; 61]%Z).
Proof. reflexivity. Qed.
Example C57_case_twice : inner 0%Z add_func sig2 [x2; Plain 1%Z] [("k", Plain 9%Z)] = Ok (RDA [("cml", 2)] 3 [2; 3; 4; 41; 51; 61]%Z).
Proof. reflexivity. Qed.
Example C57_case_surplus : inner 0%Z add_func sig2 [x2; Plain 1%Z; Plain 7%Z] [] = Ok (RDA [("cml", 2)] 3 [2; 3; 4; 41; 51; 61]%Z).
Proof. reflexivity. Qed.
Example C57_case_missing : inner 0%Z add_func sig2 [x2] [] = Ok (RDA [("cml", 2)] 3 [1; 2; 3; 40; 50; 60]%Z).
Proof. reflexivity. Qed.
Example C57_case_without_time : inner 0%Z add_func sig2 [Plain 5%Z; Plain 1%Z] [("kk", Plain 9%Z)] = Err TypeError /\
  inner 0%Z add_func sig2 [Plain 5%Z; Plain 1%Z] [] = Ok (RScalar 6%Z).
Proof. split; reflexivity. Qed.

(** ** C58 *)
Theorem C58_each_series_separately : forall (A : Type) (dA : A) f params args kw vs n,
  NoDup (map fst kw) -> binds params args kw vs ->
  existsb has_time vs = true -> Forall well_formed vs -> consistent vs ->
  (forall ds m data, In (DA ds (Some m) data) vs -> m = n) -> (forall v d k, In v vs -> In (d, k) (dims_of v) -> 0 < k) ->
  (forall dims idx xs, joint vs dims -> valid_index (map snd dims) idx -> Forall2 (sliced dA dims idx) vs xs -> exists l, f xs = Ok (RSeries l) /\ length l = n) ->
  exists dims out, inner dA f params args kw = Ok (RDA dims n out) /\ joint vs dims /\ length out = fold_right Nat.mul 1 (map snd dims) * n /\
  forall idx xs, valid_index (map snd dims) idx -> Forall2 (sliced dA dims idx) vs xs ->
    exists l, f xs = Ok (RSeries l) /\ length l = n /\ forall t, t < n -> get dA out (position (map snd dims) idx * n + t) = get dA l t.
Proof. exact @wrapper_pointwise. Qed.
Print Assumptions C58_each_series_separately.

(** every series is processed: the call succeeds only if the function succeeds on each of them *)
Theorem C58_no_series_skipped : forall (A : Type) (dA : A) f params args kw vs dims n out,
  NoDup (map fst kw) -> binds params args kw vs ->
  existsb has_time vs = true -> Forall well_formed vs -> consistent vs ->
  inner dA f params args kw = Ok (RDA dims n out) ->
  joint vs dims /\ forall idx xs, valid_index (map snd dims) idx -> Forall2 (sliced dA dims idx) vs xs -> exists r, f xs = Ok r.
Proof. exact @wrapper_error. Qed.
Print Assumptions C58_no_series_skipped.

(** a 2 x 2 stack (cml, channel), a threshold per channel; channel varies fastest *)
Definition x4 : val Z := DA [("cml", 2); ("ch", 2)] (Some 2) [1; 2; 3; 4; 5; 6; 7; 8]%Z.
Definition k2 : val Z := DA [("ch", 2)] None [100; 200]%Z.
Example C58_case : inner 0%Z add_func sig2 [x4] [("k", k2)] = Ok (RDA [("cml", 2); ("ch", 2)] 2 [101; 102; 203; 204; 105; 106; 207; 208]%Z).
Proof. reflexivity. Qed.
Example C58_case_slices : Forall2 (sliced 0%Z [("cml", 2); ("ch", 2)] [1; 0]) [x4; k2] [Series [5; 6]%Z; Plain 100%Z].
Proof.
  repeat constructor.
  - apply sl_series with (ix := [1; 0]); [|reflexivity|].
    + constructor; [exists 0; cbn; repeat split; lia|]. constructor; [exists 1; cbn; repeat split; lia|constructor].
    + intros [|[|t]] Ht; try reflexivity; lia.
  - apply (sl_elem 0%Z [("cml", 2); ("ch", 2)] [1; 0] [("ch", 2)] [100; 200]%Z [0]). constructor; [exists 1; cbn; repeat split; lia|constructor].
Qed.
Example C58_case_error : inner 0%Z add_func sig2 [x4; DA [("ch", 3)] None [1; 2; 3]%Z] [] = Err ValueError.
Proof. reflexivity. Qed.

(** A result of another length than the time axis is rejected. *)
Theorem C58_other_length_rejected : forall (A : Type) (dA : A) f p n (data l : list A),
  length data = n -> f [Series data] = Ok (RSeries l) -> length l <> n -> inner dA f [(p, None)] [DA [] (Some n) data] [] = Err ValueError.
Proof.
  intros A dA f p n data l Hn Hf Hl.
  unfold inner, apply_ufunc; cbn -[Nat.eqb]. rewrite firstn_all2 by lia. rewrite Hf. cbn -[Nat.eqb]. apply Nat.eqb_neq in Hl. rewrite Hl. reflexivity.
Qed.
Print Assumptions C58_other_length_rejected.

(** The stack of several series: the first result must have the length of the time
    axis; later ones may also be a single number, which is then repeated; any other
    length is rejected. *)
Theorem C58_later_results_stretched : forall (A : Type) (dA : A) (g : list A -> res (ret A)) c n (rows : list (list A)),
  Forall (fun r => length r = n) rows -> forall p first rest l0 ls, rows = first :: rest -> g first = Ok (RSeries l0) -> length l0 = n ->
  Forall2 (fun r l => exists y, g r = Ok y /\ stretched n y l) rest ls ->
  inner dA (on_series g) [(p, None)] [DA [(c, length rows)] (Some n) (List.concat rows)] [] = Ok (RDA [(c, length rows)] n (l0 ++ List.concat ls)%list).
Proof. exact @stack_ok. Qed.
Print Assumptions C58_later_results_stretched.
Theorem C58_first_result_fixes_length : forall (A : Type) (dA : A) (g : list A -> res (ret A)) c n (rows : list (list A)),
  Forall (fun r => length r = n) rows -> forall p first rest y, rows = first :: rest -> g first = Ok y ->
  (forall d m o, y <> RDA d m o) -> (forall t, y <> RTuple t) -> (forall l, y = RSeries l -> length l <> n) ->
  inner dA (on_series g) [(p, None)] [DA [(c, length rows)] (Some n) (List.concat rows)] [] = Err ValueError.
Proof. exact @stack_first. Qed.
Print Assumptions C58_first_result_fixes_length.
Theorem C58_later_length_rejected : forall (A : Type) (dA : A) (g : list A -> res (ret A)) c n (rows : list (list A)),
  Forall (fun r => length r = n) rows -> forall p first rest l0 j r, rows = first :: rest -> g first = Ok (RSeries l0) -> length l0 = n -> j < length rest ->
  (forall m, m < j -> exists y l, g (get [] rest m) = Ok y /\ stretched n y l) ->
  g (get [] rest j) = Ok (RSeries r) -> length r <> n -> length r <> 1 ->
  inner dA (on_series g) [(p, None)] [DA [(c, length rows)] (Some n) (List.concat rows)] [] = Err ValueError.
Proof. exact @stack_later. Qed.
Print Assumptions C58_later_length_rejected.
(** a function that returns the series, or its sum if it begins with a negative number *)
Definition sum_or_series : list Z -> res (ret Z) := fun l => match l with x :: _ => if (x <? 0)%Z then Ok (RScalar (fold_right Z.add 0 l)%Z) else if (x =? 0)%Z then Ok (RSeries [1; 2; 3]%Z) else Ok (RSeries l) | [] => Err IndexError end.
Example C58_case_stretched :
  inner 0%Z (on_series sum_or_series) [("x", None)] [DA [("ch", 2)] (Some 2) [5; 6; -1; 4]%Z] [] = Ok (RDA [("ch", 2)] 2 [5; 6; 3; 3]%Z) /\
  inner 0%Z (on_series sum_or_series) [("x", None)] [DA [("ch", 2)] (Some 2) [-1; 4; 5; 6]%Z] [] = Err ValueError /\
  inner 0%Z (on_series sum_or_series) [("x", None)] [DA [("ch", 2)] (Some 2) [5; 6; 0; 4]%Z] [] = Err ValueError.
Proof. repeat split; reflexivity. Qed.

(** ** C59 *)
Theorem C59_blackout_start_end_with_time : forall (O : numops) (ds : list (string * nat)) n (data : list O) thr args kw,
  NoDup (map fst kw) ->
  (exists t, thr = Plain t) \/ (exists ds' data', thr = DA ds' None data') ->
  binds blackout_params args kw [DA ds (Some n) data; thr] -> inner (zero : O) blackout_func blackout_params args kw = Err ValueError.
Proof. exact @blackout_wrapped. Qed.
Print Assumptions C59_blackout_start_end_with_time.

(** no function returning tuples works on time series through the wrapper *)
Theorem C59_tuples_never_work : forall (A : Type) (dA : A) f (params : list (param A)) args kw vs r,
  NoDup (map fst kw) -> binds params args kw vs -> Exists timed vs ->
  (forall xs t, f xs = Ok t -> exists l, t = RTuple l) -> inner dA f params args kw <> Ok r.
Proof. exact @tuple_inner. Qed.
Print Assumptions C59_tuples_never_work.

(** on a plain numpy array the same function works; on a DataArray with time it does not *)
Definition rsl5 : list F64 := [#(-50); #(-65); fNaN; #(-65); #(-50)].
Example C59_case_numpy : (do r <- inner (zero : F64) blackout_func blackout_params [Series rsl5; Plain #(-60)] []; match r with RTuple [s; e] => Ok (f_same_list s [#0; #1; #0; #0; #0] && f_same_list e [#0; #0; #0; #1; #0])%bool | _ => Ok false end) = Ok true.
Proof. vm_compute. reflexivity. Qed.
Example C59_case_xarray : inner (zero : F64) blackout_func blackout_params [DA [] (Some 5) rsl5; Plain #(-60)] [] = Err ValueError.
Proof. vm_compute. reflexivity. Qed.
