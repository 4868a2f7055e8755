(** Equations of the C semantics, used by the proofs. *)

From Coq Require Import ZArith NArith List String Ascii Bool Lia ZifyBool.
From Verif Require Import Base Dbl CSyntax CSem.
Import ListNotations.
Open Scope Z_scope.

Definition strict (o : binop) : bool := match o with OLand | OLor => false | _ => true end.

Lemma eval_int : forall n c m loc t z, eval n c m loc (EInt t z) = Ok (VI t z).
Proof. destruct n; reflexivity. Qed.
Lemma eval_flt : forall n c m loc t, eval n c m loc (EFlt t) = Ok (VD (flt_const t)).
Proof. destruct n; reflexivity. Qed.
Lemma eval_bin : forall n c m loc o a b, strict o = true ->
  eval n c m loc (EBin o a b)
  = do v <- eval n c m loc a; do w <- eval n c m loc b; bin_val o v w.
Proof. destruct n, o; intros; try discriminate; reflexivity. Qed.
Lemma eval_land : forall n c m loc a b,
  eval n c m loc (EBin OLand a b)
  = do v <- eval n c m loc a;
    if truth v then do w <- eval n c m loc b; Ok (vbool (truth w)) else Ok (vbool false).
Proof. destruct n; reflexivity. Qed.
Lemma eval_idx : forall n c m loc a i,
  eval n c m loc (EIdx a i)
  = do v <- eval n c m loc i;
    match path a, v with
    | Some p, VI _ z => read_idx (m_arr m p) z
    | _, _ => UB "array access"
    end.
Proof. destruct n; reflexivity. Qed.
Lemma eval_cast : forall n c m loc ty e,
  eval n c m loc (EUn (UCast ty) e)
  = do v <- eval n c m loc e;
    match c_types c ty with Some l => to_obj l v | None => UB "unknown type" end.
Proof. destruct n; reflexivity. Qed.
Lemma eval_neg : forall n c m loc e,
  eval n c m loc (EUn UNeg e) = do v <- eval n c m loc e; un_val UNeg v.
Proof. destruct n; reflexivity. Qed.
Lemma eval_fld : forall n c m loc ar e f p t v,
  path (EFld ar e f) = Some p -> m_scal m p = Some (t, v) ->
  eval n c m loc (EFld ar e f) = Ok v.
Proof.
  intros n c m loc ar e f p t v P M.
  destruct n; simpl; simpl in P; rewrite P, M; reflexivity.
Qed.
Lemma eval_deref : forall n c m loc e p t v,
  path (EUn UDeref e) = Some p -> m_scal m p = Some (t, v) ->
  eval n c m loc (EUn UDeref e) = Ok v.
Proof.
  intros n c m loc e p t v P M.
  destruct n; simpl; simpl in P; rewrite P, M; reflexivity.
Qed.
Lemma eval_loc : forall n c m loc x v, lookup x loc = Some v ->
  eval n c m loc (EId x) = Ok v.
Proof. intros. destruct n; simpl; rewrite H; reflexivity. Qed.
Lemma eval_macro : forall n c m loc x b e, lookup x loc = None ->
  lookup x (c_macros c) = Some {| m_params := None; m_body := b |} ->
  parse_expr_toks b = Some e ->
  eval (S n) c m loc (EId x) = eval n c m [] e.
Proof. intros n c m loc x b e L M P. simpl. rewrite L, M, P. reflexivity. Qed.
Lemma eval_var : forall n c m loc x t v, lookup x loc = None ->
  lookup x (c_macros c) = None -> m_scal m x = Some (t, v) ->
  eval n c m loc (EId x) = Ok v.
Proof. intros n c m loc x t v L M S. destruct n; simpl; rewrite L, M, S; reflexivity. Qed.

Lemma eval_cond : forall n c m loc e a b,
  eval n c m loc (ECond e a b)
  = do v <- eval n c m loc e; if truth v then eval n c m loc a else eval n c m loc b.
Proof. destruct n; reflexivity. Qed.

(** ** Calls *)

Definition eval_arg (n : nat) (c : ctx) (m : mem) (loc : list (string * cval)) (e1 : expr) : res arg :=
  match e1 with
  | EId x =>
      match m_arr m x with
      | Some d => Ok (AArr d)
      | None =>
          match lookup x loc, lookup x (c_macros c), m_scal m x with
          | None, None, None => Ok (ASym x)
          | _, _, _ => do v <- eval n c m loc e1; Ok (AVal v)
          end
      end
  | EFld _ _ _ =>
      match path e1 with
      | Some p =>
          match m_arr m p with
          | Some d => Ok (AArr d)
          | None => do v <- eval n c m loc e1; Ok (AVal v)
          end
      | None => UB "argument"
      end
  | _ => do v <- eval n c m loc e1; Ok (AVal v)
  end.

Definition eval_args (n : nat) (c : ctx) (m : mem) (loc : list (string * cval))
  : list expr -> res (list arg) :=
  fix evs (l : list expr) : res (list arg) :=
    match l with
    | [] => Ok []
    | e1 :: r => do v <- eval_arg n c m loc e1; do vs <- evs r; Ok (v :: vs)
    end.

Lemma eval_call : forall n c m loc f args,
  eval n c m loc (ECall f args)
  = do vs <- eval_args n c m loc args;
    match lookup f (c_macros c) with
    | Some {| m_params := Some ps; m_body := b |} =>
        match n, parse_expr_toks b, bind_args ps vs with
        | S n', Some e', Some l => eval n' c m l e'
        | _, _, _ => UB "macro call"
        end
    | _ => match c_funs c f with Some g => g vs | None => UB "unknown function" end
    end.
Proof. destruct n; reflexivity. Qed.

Lemma eval_call_fun : forall n c m loc f args g, lookup f (c_macros c) = None ->
  c_funs c f = Some g ->
  eval n c m loc (ECall f args) = do vs <- eval_args n c m loc args; g vs.
Proof.
  intros n c m loc f args g M F. rewrite eval_call, M, F.
  destruct (eval_args n c m loc args); reflexivity.
Qed.

Lemma eval_call_macro : forall n c m loc f args ps b e vs l,
  lookup f (c_macros c) = Some {| m_params := Some ps; m_body := b |} ->
  parse_expr_toks b = Some e -> eval_args (S n) c m loc args = Ok vs -> bind_args ps vs = Some l ->
  eval (S n) c m loc (ECall f args) = eval n c m l e.
Proof. intros n c m loc f args ps b e vs l M P A B. rewrite eval_call, A, M, P. cbn [bind]. now rewrite B. Qed.

(** ** Sequences of statements *)

Lemma exec_list_nil : forall n c m, exec_list n c m [] = Ok (m, None).
Proof. reflexivity. Qed.
Lemma exec_list_cons : forall n c m s r,
  exec_list n c m (s :: r)
  = do mr <- exec n c m s;
    match mr with
    | (m', Some v) => Ok (m', Some v)
    | (m', None) => exec_list n c m' r
    end.
Proof. reflexivity. Qed.
Lemma exec_list_app : forall n c a b m,
  exec_list n c m (a ++ b)
  = do mr <- exec_list n c m a;
    match mr with
    | (m', Some v) => Ok (m', Some v)
    | (m', None) => exec_list n c m' b
    end.
Proof.
  induction a; intros b m.
  - simpl (_ ++ _)%list. rewrite exec_list_nil. reflexivity.
  - rewrite <- List.app_comm_cons, !exec_list_cons.
    destruct (exec n c m a) as [[m' [v|]]|w|w]; cbn [bind]; auto.
Qed.

(** ** Conversions of values in range *)

Lemma conv_id : forall t z, fits t z = true -> conv t z = z.
Proof.
  intros t z H. unfold fits, ty_min, ty_max in H. unfold conv, uwrap, swrap.
  destruct t; cbn [is_signed width] in *;
    change (2 ^ (8 - 1)) with 128 in *; change (2 ^ (16 - 1)) with 32768 in *;
    change (2 ^ (32 - 1)) with 2147483648 in *;
    change (2 ^ (64 - 1)) with 9223372036854775808 in *;
    change (2 ^ 8) with 256 in *; change (2 ^ 16) with 65536 in *;
    change (2 ^ 32) with 4294967296 in *; change (2 ^ 64) with 18446744073709551616 in *.
  1-4: match goal with |- (if ?z mod ?p <? ?h then _ else _) = _ =>
         destruct (Z_lt_ge_dec z 0);
         [ replace (z mod p) with (z + p) by (apply Z.mod_unique with (-1); lia);
           destruct (Z.ltb_spec (z + p) h); lia
         | rewrite Z.mod_small by lia; destruct (Z.ltb_spec z h); lia ] end.
  all: apply Z.mod_small; lia.
Qed.

Lemma fits_u : forall t z, is_signed t = false -> fits t z = true <-> 0 <= z < 2 ^ width t.
Proof.
  intros t z S. unfold fits, ty_min, ty_max. rewrite S. lia.
Qed.

Lemma conv_u_range : forall t z, is_signed t = false -> 0 <= conv t z < 2 ^ width t.
Proof.
  intros t z S. unfold conv, uwrap. rewrite S. apply Z.mod_pos_bound.
  destruct t; simpl; lia.
Qed.
