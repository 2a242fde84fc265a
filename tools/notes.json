{
 "C03": {
  "note": "Reconstruction for all 32-bit words; tally generation for all 32-bit queries with shares in the generator's range."
 },
 "C10": {
  "note": "Sealed boxes are abstract; correctness law box_ok is a premise for each key pair."
 },
 "C12": {
  "note": "The sealing half with assertions enabled is C10_onion_peels."
 },
 "C85": {
  "note": "How modes and doubles are written is left open (record coding); the theorems ask that they are read back as written, which JavaScript guarantees for finite numbers other than -0."
 }
}