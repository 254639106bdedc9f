{
 "C01": "Exact reals; rho = 0 is covered by C02 and C01_circle_polynomial.",
 "C04": "Orthogonal with the stated norms; the documentation's 'orthonormal' is refuted.",
 "C05": "The documented 'n - |l| odd vanishes' is refuted (U(1,0) = rho).",
 "C08": "Includes the binary64 evaluation of the order formula (Flocq).",
 "C53": "itransform as stated; the written table only for entries that are not NaN and up to whole micrometres: the unrestricted claim about write_lookup is refuted (C53_nan_refuted, C53_fraction_refuted).",
 "C55": "The intended statement is refuted; what the code does is proved."
}