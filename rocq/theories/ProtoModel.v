(* Model of /repo/proto.c: frames on the stow/stevedore connection. *)
From Verif Require Import Base.
Open Scope list_scope.
Open Scope N_scope.

(* A byte stream being received; read(2) on a pipe or socket gives at least
   one byte if any is left and may give fewer than asked for.  [cut i] limits
   the i-th read of a payload (0 and 1 both mean one byte). *)
Definition sys_read (cut : N) (s : bytes) (n : N) : bytes * bytes :=
  let k := N.to_nat (N.min n (N.max 1 cut)) in (firstn k s, skipn k s).

(* proto_in, proto.c:164-210.  Reads are one byte each.  A failing read
   (other than end of file) is not modelled. *)
Inductive in_res :=
| InEof                                   (* return 0 *)
| InErr                                   (* return -1 *)
| InFrame (cmd len : N) (rest : bytes).   (* return 1 *)

Definition proto_in (s : bytes) : in_res :=
  match s with
  | [] => InEof
  | u0 :: r =>
      let cmd := N.land u0 7 in
      let code := N.shiftr u0 6 in
      if code =? 0 then InFrame cmd 0 r
      else if code =? 1 then InFrame cmd 32 r
      else if code =? 2 then
        match r with
        | u1 :: r' => InFrame cmd u1 r'
        | _ => InErr
        end
      else
        match r with
        | u1 :: u2 :: u3 :: u4 :: r' => InFrame cmd (be_dec [u1; u2; u3; u4]) r'
        | _ => InErr
        end
  end.

(* proto_out, proto.c:212-247: the bytes handed to writev(2).  AZ(cmd & ~7)
   aborts.  That writev writes everything is assumed (the code only reports
   otherwise). *)
Definition proto_out (cmd : N) (payload : bytes) : res bytes :=
  let* _ := guard (cmd <? 8) in
  let l := len payload in
  Ok ((if l =? 0 then [cmd]
       else if l =? 32 then [N.lor cmd (1 * 64)]
       else if l <? 256 then [N.lor cmd (2 * 64); l]
       else N.lor cmd (3 * 64) :: be_enc 4 l) ++ payload).

(* The receivers' payload loop, main_stow.c:521-528, main_stevedore.c:333-342,
   359-371, 377-385, 390-401: read until [n] bytes have arrived; None is end
   of file inside the payload.  The fuel is the number of bytes wanted. *)
Fixpoint read_loop (fuel : nat) (cut : nat -> N) (i : nat) (s acc : bytes) (n : N)
  : option (bytes * bytes) :=
  if n =? 0 then Some (acc, s)
  else match fuel with
  | O => None
  | S f =>
      match sys_read (cut i) s n with
      | ([], _) => None
      | (b, s') => read_loop f cut (S i) s' (acc ++ b) (n - len b)
      end
  end.
Definition read_payload (cut : nat -> N) (s : bytes) (n : N) : option (bytes * bytes) :=
  read_loop (N.to_nat n) cut 0 s [] n.

(* A receiver's view: the frames it dispatches on (stevedore_in,
   main_stow.c:500-548; input, main_stevedore.c:306-433), and how the stream
   ended.  [cut f] are the read sizes used for frame f. *)
Inductive ending := EndClean | EndBroken | EndFuel.
Fixpoint receive (fuel : nat) (cut : nat -> nat -> N) (s : bytes) : list (N * bytes) * ending :=
  match fuel with
  | O => ([], EndFuel)
  | S f =>
      match proto_in s with
      | InEof => ([], EndClean)
      | InErr => ([], EndBroken)
      | InFrame cmd n r =>
          match read_payload (cut fuel) r n with
          | None => ([], EndBroken)
          | Some (p, r') => let '(fs, e) := receive f cut r' in ((cmd, p) :: fs, e)
          end
      end
  end.

(* A sender's output *)
Fixpoint transmit (fs : list (N * bytes)) : res bytes :=
  match fs with
  | [] => Ok []
  | (c, p) :: r =>
      let* a := proto_out c p in
      let* b := transmit r in
      Ok (a ++ b)
  end.
