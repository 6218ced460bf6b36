(** The C math library as an oracle.

    [std::exp], [std::sin], ... are not specified bit-exactly by C++.  The
    models take them as a record of functions; theorems state what they need
    of them as hypotheses.  [std::floor], [std::fmod], [std::sqrt] etc. are
    exact and are defined in [Flt]. *)
From Coq Require Import ZArith.
From Verif Require Import Flt.

Record libm := Libm {
  m_exp : f32 -> f32; m_sin : f32 -> f32; m_cos : f32 -> f32; m_tan : f32 -> f32;
  m_tanh : f32 -> f32; m_log : f32 -> f32; m_atan : f32 -> f32; m_pow : f32 -> f32 -> f32;
  d_exp : f64 -> f64; d_sin : f64 -> f64; d_cos : f64 -> f64; d_tan : f64 -> f64;
  d_tanh : f64 -> f64; d_pow : f64 -> f64 -> f64 }.
