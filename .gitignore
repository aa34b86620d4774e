*.aux
*.d
*.glob
*.vo
*.vok
*.vos
.*.aux
.Makefile*
.lia.cache
.nia.cache
Makefile*
__pycache__/
