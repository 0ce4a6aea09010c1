*.vo
*.vok
*.vos
*.glob
*.aux
*.cache
