(** np.power on extended reals for a finite exponent.  The library only raises
    non-negative numbers (or NaN) to a power; negative bases are NaN here
    (numpy also accepts integer exponents for them). *)
From Coq Require Import Reals Lra.
From Verif Require Import Num.

Definition xpow (x g : xr) : xr :=
  match g with
  | XFin e =>
      if Req_EM_T e 0 then XFin 1
      else match x with
           | XFin b => if Rlt_dec b 0 then XNaN
                       else if Req_EM_T b 0 then (if Rlt_dec e 0 then XPInf else XFin 0)
                       else XFin (Rpower b e)
           | XPInf => if Rlt_dec e 0 then XFin 0 else XPInf
           | XNInf | XNaN => XNaN
           end
  | _ => XNaN
  end.
